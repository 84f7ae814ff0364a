(** * Specification vocabulary for the command line *)
From Verif Require Export ArgsSpec ParserStateModel.
Open Scope Z_scope.

(** ** Registering flags *)
Definition dash (c : ascii) : bool := Ascii.eqb c "-"%char.
(** --name, -abbreviation, anything else *)
Definition is_full (w : str) : bool := match w with c :: d :: _ => dash c && dash d | _ => false end.
Definition is_short (w : str) : bool := match w with c :: _ => dash c && negb (is_full w) | _ => false end.
Definition is_text (w : str) : bool := negb (is_full w) && negb (is_short w).
Definition how_many (Q : str -> bool) (l : list str) : nat := length (filter Q l).
(** the items of an entry are judged after trimming *)
Definition good_entry (items : list str) : Prop :=
  let l := map trim items in
  how_many is_full l = 1%nat /\ (how_many is_short l <= 1)%nat /\ (how_many is_text l <= 1)%nat.
(** the entry says: flag [f], abbreviation [a], description [d] (with the stand-ins for missing ones) *)
Definition entry_is (items : list str) (f a d : str) : Prop :=
  let l := map trim items in
  In f l /\ is_full f = true /\
  ((In a l /\ is_short a = true) \/ (how_many is_short l = O /\ a = $"NO_SHORT_FLAG_SPECIFIED")) /\
  ((In d l /\ is_text d = true) \/ (how_many is_text l = O /\ d = $"NO_DESCRIPTION_GIVEN")).

(** ** A parser built through its public interface *)
Section Spec.
Context {E : env}.
Inductive built : parser E -> Prop :=
| B_new fl P : ArgumentParser E fl = Ok P -> built P
| B_add f n P P' : built P -> addFlagArg f n P = Ok P' -> built P'
| B_def_int f v P : built P -> built (setFlagDefaultValue_int f v P)
| B_def_size f v P : built P -> built (setFlagDefaultValue_size f v P)
| B_def_dbl f v P : built P -> built (setFlagDefaultValue_dbl f v P)
| B_def_str f v P : built P -> built (setFlagDefaultValue_str f v P)
| B_int f n p o v P P' : built P -> setFlagArgOpt_int f n p o v P = Ok P' -> built P'
| B_dbl f n p o v P P' : built P -> setFlagArgOpt_dbl f n p o v P = Ok P' -> built P'
| B_str f n p o v P P' : built P -> setFlagArgOpt_str f n p o v P = Ok P' -> built P'
| B_set f n p o v P P' : built P -> setFlagArgOpt_set f n p o v P = Ok P' -> built P'
| B_vec f n p o v P P' : built P -> setFlagArgOpt_vec f n p o v P = Ok P' -> built P'
| B_parse args P P' : built P -> parse args P = Ok P' -> built P'
(** a command line was rejected: the parser is what the exception left *)
| B_rejected args P P' e : built P -> parse_on args P = (P', Throw e) -> built P'.

(** ** Words and flags *)
Definition registered (P : parser E) (f a : str) : Prop := exists d, m_find f (flags P) = Some (a, d).
(** a flag registered without abbreviation has this one; it stands for the first such flag *)
Definition no_abbreviation : str := $"NO_SHORT_FLAG_SPECIFIED".
Definition first_with (P : parser E) (a f : str) : Prop := forall f', registered P f' a -> f' = f \/ str_ltb f f' = true.
(** the word [w] stands for the flag [f]: it is its name or its abbreviation *)
Definition stands_for (P : parser E) (w f : str) : Prop :=
  exists a, registered P f a /\ (w = f \/ (w = a /\ (a = no_abbreviation -> first_with P a f))).
Definition a_flag (P : parser E) (w : str) : Prop := exists f, stands_for P w f.

Inductive fkind := KStr | KSwitch | KInt | KDouble | KFile.
Definition args_of (P : parser E) (k : fkind) : smap (arg E) :=
  match k with KStr => str_arg P | KSwitch => switch_arg P | KInt => int_arg P | KDouble => double_arg P | KFile => file_arg P end.
(** [f] was given an argument object of kind [k] *)
Definition has_kind (P : parser E) (f : str) (k : fkind) : Prop := exists a, m_find f (args_of P k) = Some a.

(** A sensible configuration: a word stands for one flag only, a flag has one
    kind only, and only registered flags have arguments. *)
Record regular (P : parser E) : Prop := {
  r_built : built P;
  r_one : forall w f f', stands_for P w f -> stands_for P w f' -> f = f';
  r_kind : forall f k k', has_kind P f k -> has_kind P f k' -> k = k';
  r_reg : forall f k, has_kind P f k -> exists a, registered P f a }.

(** the informational words *)
Definition note (w : str) : Prop := In w [$"--help"; $"-h"; $"--citation"; $"-cite"].
Definition version (w : str) : Prop := In w [$"--version"; $"-version"].
Definition informational (w : str) : Prop := note w \/ version w.

(** the value [w] is admissible for the flag [f]: the argument object of the flag accepts it *)
Definition admissible (P : parser E) (f w : str) : Prop :=
  exists k a, m_find f (args_of P k) = Some a /\
  match k with
  | KStr | KFile => exists a', argValid_str E w a = Ok a'
  | KInt => exists v a', stoi w = Ok v /\ argValid_int E v a = Ok a'
  | KDouble => exists v a', e_stod E w = Ok v /\ argValid_dbl E v a = Ok a'
  | KSwitch => False
  end.

(** ** Command lines: a flag with its value, a switch, or an informational word.
    [word] is what is typed, [f] the flag it stands for. *)
Inductive item := IVal (word f w : str) | ISw (word f : str) | INote (word : str).
Definition item_words (i : item) : list str :=
  match i with IVal x _ w => [x; w] | ISw x _ => [x] | INote x => [x] end.
Definition words (l : list item) : list str := concat (map item_words l).

Fixpoint valid (P : parser E) (l : list item) : Prop :=
  match l with
  | [] => True
  | IVal x f w :: t => ~ informational x /\ stands_for P x f /\ admissible P f w /\ valid P t
  | ISw x f :: t => ~ informational x /\ stands_for P x f /\ has_kind P f KSwitch /\
      (forall y r, words t = y :: r -> a_flag P y) /\ valid P t
  | INote x :: t => note x /\ valid P t
  end.

(** the values given, in order, and the switches turned on *)
Definition given (l : list item) : list (str * str) :=
  concat (map (fun i => match i with IVal _ f w => [(f, w)] | _ => [] end) l).
Definition switched (l : list item) : list str :=
  concat (map (fun i => match i with ISw _ f => [f] | _ => [] end) l).
(** the value given last for [f] *)
Definition last_value (f : str) (l : list item) (w : str) : Prop :=
  exists a b, given l = a ++ (f, w) :: b /\ forall w', ~ In (f, w') b.
(** [f] does not occur as a flag *)
Definition not_given (f : str) (l : list item) : Prop := (forall w, ~ In (f, w) (given l)) /\ ~ In f (switched l).
(** a file flag whose file must exist *)
Definition required (P : parser E) (f : str) : Prop :=
  exists t, getFlagArgOptValue P f $"ARGUMENT_FILE" $"PROPERTY_FILE_EXIST" $"FILE_MUST_EXIST" = Ok t /\ t <> $"0".
(** the file of the flag has been found *)
Definition found (P : parser E) (f : str) : Prop :=
  exists t, getFlagArgOptValue P f $"ARGUMENT_FILE" $"PROPERTY_FILE_EXIST" $"FILE_DOES_EXIST" = Ok t /\ t <> $"0".
(** the values a switch may be given *)
Definition bool_word (w : str) : Prop := In w [$"ON"; $"TRUE"; $"1"; $"OFF"; $"FALSE"; $"0"].
(** the same items, the flags spelled in another way *)
Inductive respelled (P : parser E) : list item -> list item -> Prop :=
| rs_nil : respelled P [] []
| rs_val x x' f w l l' : ~ informational x' -> stands_for P x' f -> respelled P l l' ->
    respelled P (IVal x f w :: l) (IVal x' f w :: l')
| rs_sw x x' f l l' : ~ informational x' -> stands_for P x' f -> respelled P l l' ->
    respelled P (ISw x f :: l) (ISw x' f :: l')
| rs_note x l l' : respelled P l l' -> respelled P (INote x :: l) (INote x :: l').
Definition all_notes (l : list str) : Prop := Forall note l.
End Spec.
Arguments built E P : clear implicits.
