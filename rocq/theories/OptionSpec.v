(** * Specification vocabulary for the options of flags (setFlagArgOpt / getFlagArgOptValue) *)
From Verif Require Export ParserSpec.
Open Scope Z_scope.

Section Spec.
Context {E : env}.
(** the five overloads of setFlagArgOpt *)
Inductive setting := SInt (v : Z) | SDbl (v : D E) | SStr (v : str) | SSet (l : list str) | SVec (l : list str).
Definition set_option (f n pr o : str) (s : setting) (P : parser E) : outcome (parser E) :=
  match s with
  | SInt v => setFlagArgOpt_int f n pr o v P
  | SDbl v => setFlagArgOpt_dbl f n pr o v P
  | SStr v => setFlagArgOpt_str f n pr o v P
  | SSet l => setFlagArgOpt_set f n pr o l P
  | SVec l => setFlagArgOpt_vec f n pr o l P
  end.
(** everything that can be done to a parser *)
Inductive call :=
| CSet (f n pr o : str) (s : setting) | CAdd (f n : str) | CParse (args : list str)
| CDefInt (f : str) (v : Z) | CDefSize (f : str) (v : Z) | CDefDbl (f : str) (v : D E) | CDefStr (f : str) (v : str).
(** the program goes on with the parser a command line has left, accepted or not *)
Definition settled (r : parser E * outcome unit) : outcome (parser E) :=
  match r with (P, Ok _) | (P, Throw _) => Ok P | (_, Exit n) => Exit n | (_, Undef u) => Undef u | (_, NoFuel) => NoFuel end.
Definition do_call (c : call) (P : parser E) : outcome (parser E) :=
  match c with
  | CSet f n pr o s => set_option f n pr o s P
  | CAdd f n => addFlagArg f n P
  | CParse args => settled (parse_on args P)
  | CDefInt f v => Ok (setFlagDefaultValue_int f v P)
  | CDefSize f v => Ok (setFlagDefaultValue_size f v P)
  | CDefDbl f v => Ok (setFlagDefaultValue_dbl f v P)
  | CDefStr f v => Ok (setFlagDefaultValue_str f v P)
  end.
Fixpoint do_calls (l : list call) (P : parser E) : outcome (parser E) :=
  match l with [] => Ok P | c :: t => P1 <- do_call c P ;; do_calls t P1 end.

(** values separated by blanks *)
Fixpoint spaced (l : list str) : str :=
  match l with [] => [] | [v] => v | v :: t => v ++ $" " ++ spaced t end.
(** how a value is shown for an argument of type [n] *)
Definition shown (n : str) (s : setting) : str :=
  match s with
  | SInt v => if str_eqb n $"ARGUMENT_SWITCH" then (if v =? 0 then $"OFF" else $"ON") else dec v
  | SDbl v => d_text E v
  | SStr v => if str_eqb n $"ARGUMENT_SWITCH" then v else trim v
  | SSet l | SVec l => trim (spaced l)
  end.
(** the options parse() itself writes *)
Definition written_by_parse (pr o : str) : Prop :=
  (pr = $"PROPERTY_FILE_EXIST" /\ o = $"FILE_DOES_EXIST") \/
  (pr = $"PROPERTY_SISTER_FILE" /\
   In o [$"SISTER_FILE_NAME"; $"SISTER_FILE_PATH"; $"SISTER_FILE_PATH_NAME"; $"SISTER_FILE_EXISTS"]).
Definition no_set (f n pr o : str) (c : call) : Prop :=
  match c with CSet f' n' pr' o' _ => (f', n', pr', o') <> (f, n, pr, o) | _ => True end.
Definition no_parse (c : call) : Prop := match c with CParse _ => False | _ => True end.
(** the options of the types of arguments and the values they have in a new argument *)
Definition initially : list (str * str * str * str) :=
  [($"ARGUMENT_INT", $"PROPERTY_INT", $"MIN", $"-2147483648");
   ($"ARGUMENT_INT", $"PROPERTY_INT", $"MAX", $"2147483647");
   ($"ARGUMENT_STRING", $"PROPERTY_STRING", $"MIN_LENGTH", $"0");
   ($"ARGUMENT_STRING", $"PROPERTY_STRING", $"MAX_LENGTH", $"18446744073709551615");
   ($"ARGUMENT_STRING", $"PROPERTY_STRING_CHOICE", $"STRING_CHOICES", $"NOT_DEFINED");
   ($"ARGUMENT_STRING", $"PROPERTY_STRING_CHOICE", $"STRING_CHOICE_ENFORCED", $"false");
   ($"ARGUMENT_SWITCH", $"PROPERTY_SWITCH", $"DEFAULT", $"OFF");
   ($"ARGUMENT_FILE", $"PROPERTY_FILE_EXIST", $"FILE_MUST_EXIST", $"0");
   ($"ARGUMENT_FILE", $"PROPERTY_FILE_EXIST", $"FILE_DOES_EXIST", $"0");
   ($"ARGUMENT_FILE", $"PROPERTY_FILE_EXT", $"ALLOWED_FILE_EXT", $"*");
   ($"ARGUMENT_FILE", $"PROPERTY_SISTER_FILE", $"ALLOWED_SISTER_FILE_EXT", $"NOT_DEFINED");
   ($"ARGUMENT_FILE", $"PROPERTY_SISTER_FILE", $"SISTER_FILE_NAME", $"NOT_DEFINED");
   ($"ARGUMENT_FILE", $"PROPERTY_SISTER_FILE", $"SISTER_FILE_PATH", $"NOT_DEFINED");
   ($"ARGUMENT_FILE", $"PROPERTY_SISTER_FILE", $"SISTER_FILE_PATH_NAME", $"NOT_DEFINED");
   ($"ARGUMENT_FILE", $"PROPERTY_SISTER_FILE", $"SISTER_FILE_EXISTS", $"false")].
End Spec.
Arguments setting E : clear implicits.
Arguments call E : clear implicits.
