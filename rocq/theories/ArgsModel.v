(** * Model of src/libcatnip/io/arguments (properties, argument objects)

    Options of a property are a [std::map<string, T>]; the model keeps it as an
    association list with std::map's insertion (sorted by key, one entry per
    key).  A [std::set<string>] is the sorted list of its elements.

    The environment [env] collects what the code takes from outside: the type
    [double] with the operations used here, [std::stod], [std::to_string(double)]
    and [stat] (does a path exist).

    An exception leaves the object as it was when the exception was thrown; the
    model returns no state with an exception.  Text of messages is not modelled. *)
From Verif Require Export StrModel.
Open Scope Z_scope.

(** ** std::map and std::set with string keys *)
Fixpoint str_ltb (a b : str) : bool :=
  match a, b with
  | _, [] => false
  | [], _ :: _ => true
  | x :: a', y :: b' => (code x <? code y) || ((code x =? code y) && str_ltb a' b')
  end.
(** std::map<string, V>: entries sorted by key (library) *)
Definition smap (V : Type) := list (str * V).
(** [m.find(k)], [m.at(k)] (library) *)
Fixpoint m_find {V} (k : str) (m : smap V) : option V :=
  match m with [] => None | (k', v) :: t => if str_eqb k k' then Some v else m_find k t end.
(** [m.count(k)] (library) *)
Definition m_has {V} (k : str) (m : smap V) : bool := match m_find k m with Some _ => true | None => false end.
(** [m[k] = v] *)
Fixpoint m_set {V} (k : str) (v : V) (m : smap V) : smap V :=
  match m with
  | [] => [(k, v)]
  | (k', v') :: t => if str_eqb k k' then (k, v) :: t
                     else if str_ltb k k' then (k, v) :: m else (k', v') :: m_set k v t
  end.
(** std::set<string>::insert (library) *)
Fixpoint s_insert (k : str) (s : list str) : list str :=
  match s with
  | [] => [k]
  | k' :: t => if str_eqb k k' then s else if str_ltb k k' then k :: s else k' :: s_insert k t
  end.
(** std::set<string> of a list of strings (library) *)
Definition set_of (l : list str) : list str := fold_left (fun s k => s_insert k s) l [].

(** ** std::stoi: white space, sign, digits; the rest of the text is ignored *)
Fixpoint digits_val (acc : Z) (s : str) : Z :=
  match s with [] => acc | c :: t => if is_digit c then digits_val (acc * 10 + digit_val c) t else acc end.
(** std::stoi (library): invalid_argument without digits, out_of_range outside int; called at argumentparser.cpp:483-485 and logreader.cpp:197 *)
Definition stoi (s : str) : outcome Z :=
  let s1 := drop_while is_space s in
  let '(sgn, s2) := match s1 with
                    | c :: t => if Ascii.eqb c "-"%char then (-1, t) else if Ascii.eqb c "+"%char then (1, t) else (1, s1)
                    | [] => (1, s1)
                    end in
  match s2 with
  | c :: _ => if is_digit c then
                let v := sgn * digits_val 0 s2 in
                if is_intb v then Ok v else Throw OutOfRange
              else Throw InvalidArgument
  | [] => Throw InvalidArgument
  end.

(** What the parser takes from its surroundings: double arithmetic and conversions (library), and the file system (propertyfileexist.cpp:24-27, propertysisterfile.cpp:31-34) *)
Record env := mkEnv {
  D : Type;                       (* double *)
  d_lt : D -> D -> bool;          (* < *)
  d_lowest : D;
  d_max : D;
  d_text : D -> str;              (* std::to_string *)
  e_stod : str -> outcome D;      (* std::stod *)
  file_exists : str -> bool       (* stat(path) == 0, properties/propertyfileexist.cpp:24-27, propertysisterfile.cpp:31-34 *)
}.

(** ** properties/propertyobject.hpp *)
(** The class of a property object (its virtual functions). *)
Inductive pkind := PInt | PDouble | PString | PSwitch | PFileExist | PFileExt | PSister | PChoice.

(** getName_ of propertyint.hpp, propertydouble.hpp, ... *)
Definition prop_name (k : pkind) : str :=
  match k with
  | PInt => $"PROPERTY_INT" | PDouble => $"PROPERTY_DOUBLE" | PString => $"PROPERTY_STRING"
  | PSwitch => $"PROPERTY_SWITCH" | PFileExist => $"PROPERTY_FILE_EXIST" | PFileExt => $"PROPERTY_FILE_EXT"
  | PSister => $"PROPERTY_SISTER_FILE" | PChoice => $"PROPERTY_STRING_CHOICE"
  end.
(** getOpts_: propertyint.cpp:13-16, propertydouble.cpp:13-16, propertystring.cpp:13-16,
    propertyswitch.cpp:11-14, propertyfileexist.cpp:19-22, propertyfileext.cpp:32-35,
    propertysisterfile.cpp:21-29, propertystringchoice.cpp:18-23 *)
Definition prop_opts (k : pkind) : list str :=
  match k with
  | PInt => [$"MIN"; $"MAX"] | PDouble => [$"MIN"; $"MAX"] | PString => [$"MIN_LENGTH"; $"MAX_LENGTH"]
  | PSwitch => [$"DEFAULT"] | PFileExist => [$"FILE_MUST_EXIST"; $"FILE_DOES_EXIST"]
  | PFileExt => [$"ALLOWED_FILE_EXT"]
  | PSister => [$"ALLOWED_SISTER_FILE_EXT"; $"SISTER_FILE_NAME"; $"SISTER_FILE_PATH"; $"SISTER_FILE_PATH_NAME"; $"SISTER_FILE_EXISTS"]
  | PChoice => [$"STRING_CHOICE_ENFORCED"; $"STRING_CHOICES"]
  end.

(** propertyobject.hpp:17-22 *)
Record prop (T : Type) := mkProp { p_kind : pkind; p_options : smap T }.
Arguments mkProp {T} _ _.
Arguments p_kind {T} _.
Arguments p_options {T} _.

Section PropBase.
Context {T : Type}.
(** propertyobject.hpp:24-29 *)
Definition propOptionValid_ (p : prop T) (option : str) : bool := m_has option (p_options p).
(** propertyobject.hpp:31-40 *)
Definition setPropOption_ (option : str) (v : T) (p : prop T) : prop T :=
  mkProp (p_kind p) (m_set option v (p_options p)).
(** propertyobject.hpp:65-70 (not virtual: this is the version called through base class pointers) *)
Definition setPropOption (option : str) (v : T) (p : prop T) : outcome (prop T) :=
  if propOptionValid_ p option then Ok (setPropOption_ option v p) else Throw InvalidArgument.
(** propertyobject.hpp:72-81 *)
Definition getPropOption (p : prop T) (option : str) : outcome T :=
  match m_find option (p_options p) with Some v => Ok v | None => Throw InvalidArgument end.
End PropBase.

(** ** properties *)
(** propertyint.cpp:8-11 *)
Definition PropertyInt : prop Z := setPropOption_ $"MAX" INT_MAX (setPropOption_ $"MIN" INT_MIN (mkProp PInt [])).
(** propertyint.cpp:18-32, propertyint.hpp:16-19 *)
Definition int_propValid (val : Z) (p : prop Z) : outcome (prop Z) :=
  lo <- getPropOption p $"MIN" ;;
  if val <? lo then Throw InvalidArgument else
  hi <- getPropOption p $"MAX" ;;
  if hi <? val then Throw InvalidArgument else Ok p.

(** propertystring.cpp:8-11; options are size_t *)
Definition PropertyString : prop Z :=
  setPropOption_ $"MAX_LENGTH" (size_t (-1)) (setPropOption_ $"MIN_LENGTH" 0 (mkProp PString [])).
(** propertystring.cpp:18-32 *)
Definition string_propValid (val : str) (p : prop Z) : outcome (prop Z) :=
  hi <- getPropOption p $"MAX_LENGTH" ;;
  if hi <? len val then Throw InvalidArgument else
  lo <- getPropOption p $"MIN_LENGTH" ;;
  if len val <? lo then Throw InvalidArgument else Ok p.

(** the text "true" (propertysisterfile.cpp:142, propertystringchoice.cpp:28, 67, 91) *)
Definition s_true : str := $"true".
(** the text "false" (propertysisterfile.cpp:17, 95, 144, propertystringchoice.cpp:11, 28, 67) *)
Definition s_false : str := $"false".
(** the text "NOT_DEFINED" (propertysisterfile.cpp:11, 88, 134, propertystringchoice.cpp:13) *)
Definition NOT_DEFINED : str := $"NOT_DEFINED".

(** propertystringchoice.cpp:10-16 *)
Definition PropertyStringChoice : prop (list str) :=
  setPropOption_ $"STRING_CHOICES" [NOT_DEFINED]
    (setPropOption_ $"STRING_CHOICE_ENFORCED" [s_false] (mkProp PChoice [])).
(** propertystringchoice.cpp:25-44.  Returns the property as the call leaves it
    and whether an exception is thrown. *)
Definition choice_setPropOption_str (opt var : str) (p : prop (list str)) : prop (list str) * option exn :=
  if str_eqb opt $"STRING_CHOICE_ENFORCED" then
    if str_eqb var s_false || str_eqb var s_true then (setPropOption_ opt [var] p, None)
    else (p, Some InvalidArgument)
  else if str_eqb opt $"STRING_CHOICES" then (setPropOption_ opt [var] p, Some InvalidArgument)
  else (p, Some InvalidArgument).
(** propertystringchoice.cpp:46-85; [*(set_vars.begin())] of an empty set is undefined *)
Definition choice_setPropOption_set (option : str) (vars : list str) (p : prop (list str)) : outcome (prop (list str)) :=
  if str_eqb option $"STRING_CHOICES" then Ok (setPropOption_ option vars p)
  else if str_eqb option $"STRING_CHOICE_ENFORCED" then
    match vars with
    | [] => Undef BadIterator
    | [var] => if str_eqb var s_false || str_eqb var s_true then Ok (setPropOption_ option vars p) else Throw InvalidArgument
    | _ => Throw InvalidArgument
    end
  else Throw InvalidArgument.
(** propertystringchoice.cpp:87-98 *)
Definition choice_propValid (val : str) (p : prop (list str)) : outcome (prop (list str)) :=
  opt_val <- getPropOption p $"STRING_CHOICE_ENFORCED" ;;
  match opt_val with
  | [] => Undef BadIterator
  | v :: _ =>
    if str_eqb v s_true then
      choices <- getPropOption p $"STRING_CHOICES" ;;
      if existsb (str_eqb val) choices then Ok p else Throw InvalidArgument
    else Ok p
  end.

(** propertyswitch.cpp:9 *)
Definition PropertySwitch : prop str := setPropOption_ $"DEFAULT" $"OFF" (mkProp PSwitch []).
(** propertyswitch.cpp:28-40 *)
Definition switch_propValid (val : str) (p : prop str) : outcome (prop str) :=
  if existsb (str_eqb val) [$"0"; $"1"; $"ON"; $"OFF"; $"TRUE"; $"FALSE"] then Ok p else Throw InvalidArgument.

(** propertyfileexist.cpp:10-13 *)
Definition PropertyFileExist : prop Z :=
  setPropOption_ $"FILE_DOES_EXIST" 0 (setPropOption_ $"FILE_MUST_EXIST" 0 (mkProp PFileExist [])).
(** propertyfileexist.cpp:15-17 *)
Definition PropertyFileExist_int (must : Z) : prop Z := setPropOption_ $"FILE_MUST_EXIST" must (mkProp PFileExist []).
(** propertyfileexist.cpp:29-42 *)
Definition exist_propValid (E : env) (path : str) (p : prop Z) : outcome (prop Z) :=
  must <- getPropOption p $"FILE_MUST_EXIST" ;;
  if negb (must =? 0) then
    if negb (file_exists E path) then Throw InvalidArgument
    else Ok (setPropOption_ $"FILE_DOES_EXIST" 1 p)
  else
    if file_exists E path then Ok (setPropOption_ $"FILE_DOES_EXIST" 1 p) else Ok p.
(** propertyfileexist.cpp:44-50 *)
Definition exist_postCheck (p : prop Z) : outcome unit :=
  must <- getPropOption p $"FILE_MUST_EXIST" ;;
  does <- getPropOption p $"FILE_DOES_EXIST" ;;
  if negb (must =? 0) && (does =? 0) then Throw RuntimeError else Ok tt.

(** first character; [s[0]] of an empty string is NUL *)
Definition char0 (s : str) : ascii := match s with [] => NUL | c :: _ => c end.
(** propertyfileext.cpp:51-66 *)
Definition ext_checkExt (ext : str) : outcome unit :=
  if str_eqb ext [] then Ok tt
  else if Ascii.eqb (char0 ext) "*" then Ok tt
  else excess <- grabStrBeforeLastOccurance ext $"." ;;
       if negb (str_eqb excess []) then Throw InvalidArgument else Ok tt.
(** propertyfileext.cpp:10-14, 16-21, 23-30 *)
Definition PropertyFileExt : prop (list str) := setPropOption_ $"ALLOWED_FILE_EXT" [$"*"] (mkProp PFileExt []).
(** propertyfileext.cpp:23-30 *)
Definition PropertyFileExt_set (exts : list str) : outcome (prop (list str)) :=
  for_each exts (fun e _ => ext_checkExt e) tt ;;;
  Ok (setPropOption_ $"ALLOWED_FILE_EXT" exts (mkProp PFileExt [])).
(** propertyfileext.cpp:37-49 *)
Definition extSupported (ext : str) (p : prop (list str)) : outcome unit :=
  ext_checkExt ext ;;;
  exts <- getPropOption p $"ALLOWED_FILE_EXT" ;;
  if existsb (fun e => Ascii.eqb (char0 e) "*" || str_eqb e ext) exts then Ok tt else Throw InvalidArgument.
(** propertyfileext.cpp:79-84 *)
Definition ext_propValid (path : str) (p : prop (list str)) : outcome (prop (list str)) :=
  fileName <- lastStringInPath path ;;
  ext <- grabStrAfterLastOccuranceInclusive fileName $"." ;;
  extSupported ext p ;;; Ok p.

(** propertysisterfile.cpp:10-19 *)
Definition PropertySisterFile : prop (list str) :=
  setPropOption_ $"SISTER_FILE_EXISTS" [s_false]
   (setPropOption_ $"SISTER_FILE_PATH_NAME" [NOT_DEFINED]
    (setPropOption_ $"SISTER_FILE_PATH" [NOT_DEFINED]
     (setPropOption_ $"SISTER_FILE_NAME" [NOT_DEFINED]
      (setPropOption_ $"ALLOWED_SISTER_FILE_EXT" [NOT_DEFINED] (mkProp PSister []))))).
(** propertysisterfile.cpp:48-57 *)
Definition sister_checkExt (ext : str) : outcome unit :=
  excess <- grabStrBeforeLastOccurance ext $"." ;;
  if negb (str_eqb excess []) then Throw InvalidArgument else Ok tt.
(** propertysisterfile.cpp:80-117 *)
Definition sister_setPropOption_vec (option : str) (vars : list str) (p : prop (list str)) : outcome (prop (list str)) :=
  if str_eqb option $"ALLOWED_SISTER_FILE_EXT" then
    for_each vars (fun e _ => sister_checkExt e) tt ;;; Ok (setPropOption_ option vars p)
  else Throw InvalidArgument.
(** propertysisterfile.cpp:119-153 *)
Definition sister_propValid (E : env) (path : str) (p : prop (list str)) : outcome (prop (list str)) :=
  fileName <- lastStringInPath path ;;
  dir <- getPath path ;;
  core <- grabStrBeforeLastOccurance fileName $"." ;;
  exts <- getPropOption p $"ALLOWED_SISTER_FILE_EXT" ;;
  let used := filter (fun e => negb (str_eqb e NOT_DEFINED)) exts in
  let names := map (fun e => core ++ e) used in
  let paths := map (fun e => dir ++ core ++ e) used in
  Ok (setPropOption_ $"SISTER_FILE_EXISTS" (map (fun q => if file_exists E q then s_true else s_false) paths)
      (setPropOption_ $"SISTER_FILE_PATH_NAME" paths
       (setPropOption_ $"SISTER_FILE_PATH" (map (fun _ => dir) used)
        (setPropOption_ $"SISTER_FILE_NAME" names p)))).

Section Args.
Context (E : env).

(** propertydouble.cpp:8-11 *)
Definition PropertyDouble : prop (D E) :=
  setPropOption_ $"MAX" (d_max E) (setPropOption_ $"MIN" (d_lowest E) (mkProp PDouble [])).
(** propertydouble.cpp:18-32 *)
Definition double_propValid (val : D E) (p : prop (D E)) : outcome (prop (D E)) :=
  lo <- getPropOption p $"MIN" ;;
  if d_lt E val lo then Throw InvalidArgument else
  hi <- getPropOption p $"MAX" ;;
  if d_lt E hi val then Throw InvalidArgument else Ok p.

(** ** argumentobject.hpp:18-26: the six vectors of properties *)
Inductive akind := AInt | ADouble | AString | ASwitch | AFile.
(** getName_ of argumentint.hpp, ... *)
Definition arg_name (k : akind) : str :=
  match k with
  | AInt => $"ARGUMENT_INT" | ADouble => $"ARGUMENT_DOUBLE" | AString => $"ARGUMENT_STRING"
  | ASwitch => $"ARGUMENT_SWITCH" | AFile => $"ARGUMENT_FILE"
  end.
(** argumentobject.hpp:18-26: an argument object is its class and its six vectors of properties *)
Record arg := mkArg {
  a_kind : akind;
  a_int : list (prop Z); a_dbl : list (prop (D E)); a_size : list (prop Z);
  a_str : list (prop str); a_set : list (prop (list str)); a_vec : list (prop (list str)) }.

(** argumentint.cpp:9-14, argumentdouble.cpp:9-14, argumentstring.cpp:10-17,
    argumentswitch.cpp:9-14, argumentfile.cpp:11-21 *)
Definition ArgumentInt : arg := mkArg AInt [PropertyInt] [] [] [] [] [].
(** argumentdouble.cpp:9-14 *)
Definition ArgumentDouble : arg := mkArg ADouble [] [PropertyDouble] [] [] [] [].
(** argumentstring.cpp:10-17 *)
Definition ArgumentString : arg := mkArg AString [] [] [PropertyString] [] [PropertyStringChoice] [].
(** argumentswitch.cpp:9-14 *)
Definition ArgumentSwitch : arg := mkArg ASwitch [] [] [] [PropertySwitch] [] [].
(** argumentfile.cpp:11-21 *)
Definition ArgumentFile : arg := mkArg AFile [PropertyFileExist] [] [] [] [PropertyFileExt] [PropertySisterFile].

(** argumentobject.hpp:84, argumentswitch.hpp:16 *)
Definition requiresParameter (a : arg) : bool := match a_kind a with ASwitch => false | _ => true end.

(** argumentswitch.cpp:16-25, argumentswitch.hpp:17 *)
Definition positive_str (val : str) : outcome bool :=
  if existsb (str_eqb val) [$"ON"; $"TRUE"; $"1"] then Ok true
  else if existsb (str_eqb val) [$"OFF"; $"FALSE"; $"0"] then Ok false
  else Throw InvalidArgument.
(** argumentswitch.hpp:17 *)
Definition positive_int (val : Z) : bool := val =? 1.

(** the virtual propValid of a property in a string argument *)
Definition v_int (val : str) (p : prop Z) : outcome (prop Z) :=
  match p_kind p with PFileExist => exist_propValid E val p | _ => Ok p end.
(** the same for propertiesSize_t_ (argumentobject.hpp:30-49, propertystring.cpp:18-32) *)
Definition v_size (val : str) (p : prop Z) : outcome (prop Z) :=
  match p_kind p with PString => string_propValid val p | _ => Ok p end.
(** the same for propertiesStr_ (propertyswitch.cpp:28-35) *)
Definition v_str (val : str) (p : prop str) : outcome (prop str) :=
  match p_kind p with PSwitch => switch_propValid val p | _ => Ok p end.
(** the same for propertiesSetStr_ (propertyfileext.cpp, propertystringchoice.cpp) *)
Definition v_set (val : str) (p : prop (list str)) : outcome (prop (list str)) :=
  match p_kind p with PFileExt => ext_propValid val p | PChoice => choice_propValid val p | _ => Ok p end.
(** the same for propertiesVecStr_ (propertysisterfile.cpp) *)
Definition v_vec (val : str) (p : prop (list str)) : outcome (prop (list str)) :=
  match p_kind p with PSister => sister_propValid E val p | _ => Ok p end.

(** one of the loops of argumentobject.hpp:30-49 *)
Fixpoint each {A} (f : A -> outcome A) (l : list A) : outcome (list A) :=
  match l with [] => Ok [] | x :: t => y <- f x ;; t' <- each f t ;; Ok (y :: t') end.

(** argumentobject.hpp:30-49 and 400-403 for string arguments (string, switch,
    file); a_dbl is empty in all of them *)
Definition argValid_str (val : str) (a : arg) : outcome arg :=
  i <- each (v_int val) (a_int a) ;;
  z <- each (v_size val) (a_size a) ;;
  s <- each (v_str val) (a_str a) ;;
  st <- each (v_set val) (a_set a) ;;
  v <- each (v_vec val) (a_vec a) ;;
  Ok (mkArg (a_kind a) i (a_dbl a) z s st v).
(** the same for ArgumentInt (all vectors but a_int are empty) *)
Definition argValid_int (val : Z) (a : arg) : outcome arg :=
  i <- each (int_propValid val) (a_int a) ;;
  Ok (mkArg (a_kind a) i (a_dbl a) (a_size a) (a_str a) (a_set a) (a_vec a)).
(** the same for ArgumentDouble *)
Definition argValid_dbl (val : D E) (a : arg) : outcome arg :=
  d <- each (double_propValid val) (a_dbl a) ;;
  Ok (mkArg (a_kind a) (a_int a) d (a_size a) (a_str a) (a_set a) (a_vec a)).

(** argumentobject.hpp:405-424: postCheck is overridden only by PropertyFileExist *)
Definition postArgCheck (a : arg) : outcome unit :=
  for_each (a_int a) (fun p _ => match p_kind p with PFileExist => exist_postCheck p | _ => Ok tt end) tt.

(** argumentobject.hpp:178-182 = 191-195 = 250-254 = 267-271 *)
Definition join (l : list str) : str := trim (concat (map (fun v => v ++ $" ") l)).

(** one of the loops of argumentobject.hpp:202-276 *)
Fixpoint prop_value {T} (text : T -> str) (property opt : str) (ps : list (prop T)) : option (outcome str) :=
  match ps with
  | [] => None
  | p :: t =>
    if str_eqb property (prop_name (p_kind p)) && existsb (str_eqb opt) (prop_opts (p_kind p))
    then Some (v <- getPropOption p opt ;; Ok (text v))
    else prop_value text property opt t
  end.
(** the first value found, in the order of the loops of argumentobject.hpp:202-276 *)
Definition orelse {A} (a b : option A) : option A := match a with Some _ => a | None => b end.
(** argumentobject.hpp:202-281 *)
Definition getPropertyValues (a : arg) (property option : str) : outcome str :=
  match orelse (prop_value dec property option (a_int a))
        (orelse (prop_value (d_text E) property option (a_dbl a))
        (orelse (prop_value dec property option (a_size a))
        (orelse (prop_value (fun s => s) property option (a_str a))
        (orelse (prop_value join property option (a_set a))
                (prop_value join property option (a_vec a)))))) with
  | Some r => r
  | None => Throw InvalidArgument
  end.

(** the loops "if the names agree, prop->setPropOption(option, val)" of
    argumentobject.hpp:284-398; the bool is [setval] *)
Fixpoint set_in {T} (property option : str) (v : T) (ps : list (prop T)) : outcome (bool * list (prop T)) :=
  match ps with
  | [] => Ok (false, [])
  | p :: t =>
    if str_eqb property (prop_name (p_kind p)) then
      p' <- setPropOption option v p ;; r <- set_in property option v t ;; Ok (true, p' :: snd r)
    else r <- set_in property option v t ;; Ok (fst r, p :: snd r)
  end.
(** argumentobject.hpp:284-301 *)
Definition setArgPropertyOpt_dbl (property option : str) (v : D E) (a : arg) : outcome arg :=
  r <- set_in property option v (a_dbl a) ;;
  if fst r : bool then Ok (mkArg (a_kind a) (a_int a) (snd r) (a_size a) (a_str a) (a_set a) (a_vec a)) else Throw InvalidArgument.
(** argumentobject.hpp:303-324 *)
Definition setArgPropertyOpt_set (property option : str) (v : list str) (a : arg) : outcome arg :=
  r <- set_in property option v (a_set a) ;;
  if fst r : bool then Ok (mkArg (a_kind a) (a_int a) (a_dbl a) (a_size a) (a_str a) (snd r) (a_vec a)) else Throw InvalidArgument.
(** argumentobject.hpp:326-346 *)
Definition setArgPropertyOpt_vec (property option : str) (v : list str) (a : arg) : outcome arg :=
  r <- set_in property option v (a_vec a) ;;
  if fst r : bool then Ok (mkArg (a_kind a) (a_int a) (a_dbl a) (a_size a) (a_str a) (a_set a) (snd r)) else Throw InvalidArgument.
(** argumentobject.hpp:348-379 *)
Definition setArgPropertyOpt_str (property option : str) (v : str) (a : arg) : outcome arg :=
  r1 <- set_in property option v (a_str a) ;;
  r2 <- set_in property option [v] (a_vec a) ;;
  r3 <- set_in property option [v] (a_set a) ;;
  if (fst r1 || fst r2 || fst r3 : bool) then Ok (mkArg (a_kind a) (a_int a) (a_dbl a) (a_size a) (snd r1) (snd r3) (snd r2)) else Throw InvalidArgument.
(** argumentobject.hpp:381-398 *)
Definition setArgPropertyOpt_int (property option : str) (v : Z) (a : arg) : outcome arg :=
  r <- set_in property option v (a_int a) ;;
  if fst r : bool then Ok (mkArg (a_kind a) (snd r) (a_dbl a) (a_size a) (a_str a) (a_set a) (a_vec a)) else Throw InvalidArgument.
End Args.
