(** * Model of src/libcatnip/io/argumentparser.cpp, io.cpp and parameters.cpp

    The maps from flags to argument objects own their objects (pointers never
    shared), so they are modelled by value.  What the parser prints is modelled
    by [showUsage] only; [parse] drops the output. *)
From Verif Require Export ArgsModel.
Open Scope Z_scope.

(** argumentparser.hpp: the data members ([argument_types_] is never used). *)
Record parser (E : env) := mkParser {
  str_arg : smap (arg E); switch_arg : smap (arg E); int_arg : smap (arg E);
  double_arg : smap (arg E); file_arg : smap (arg E);
  flags : smap (str * str);            (* full flag -> (abbreviation, description) *)
  defaults_set : smap bool;
  int_values : smap Z; double_values : smap (D E); string_values : smap str; size_t_values : smap Z;
  maxShort : Z; maxFull : Z; maxDesc : Z }.
Arguments mkParser {E}.
Arguments str_arg {E} _. Arguments switch_arg {E} _. Arguments int_arg {E} _. Arguments double_arg {E} _.
Arguments file_arg {E} _. Arguments flags {E} _. Arguments defaults_set {E} _. Arguments int_values {E} _.
Arguments double_values {E} _. Arguments string_values {E} _. Arguments size_t_values {E} _.
Arguments maxShort {E} _. Arguments maxFull {E} _. Arguments maxDesc {E} _.

(** std::vector<string> comparison and std::set<vector<string>>::insert *)
Fixpoint vec_ltb (a b : list str) : bool :=
  match a, b with
  | _, [] => false
  | [], _ :: _ => true
  | x :: a', y :: b' => str_ltb x y || (str_eqb x y && vec_ltb a' b')
  end.
(** equality of std::vector<string> (library) *)
Fixpoint vec_eqb (a b : list str) : bool :=
  match a, b with [], [] => true | x :: a', y :: b' => str_eqb x y && vec_eqb a' b' | _, _ => false end.
(** std::set<vector<string>>::insert (library), used at argumentparser.cpp:22 *)
Fixpoint vs_insert (k : list str) (s : list (list str)) : list (list str) :=
  match s with
  | [] => [k]
  | k' :: t => if vec_eqb k k' then s else if vec_ltb k k' then k :: s else k' :: vs_insert k t
  end.

(** argumentparser.cpp:36 *)
Definition NO_FLAG : str := $"NO_FLAG_SPECIFIED".
(** argumentparser.cpp:37 *)
Definition NO_SHORT : str := $"NO_SHORT_FLAG_SPECIFIED".
(** argumentparser.cpp:38 *)
Definition NO_DESC : str := $"NO_DESCRIPTION_GIVEN".
(** argumentparser.cpp:18-21 *)
Definition help_entry : list str := [$"--help"; $"-h"; $"Display help message"].

(** argumentparser.cpp:36-42 and 43-88: the items of one flag *)
Record entry := mkEntry { full_flag : str; short_flag : str; desc : str; description : bool; abbreviation : bool; flag_name : bool }.
(** argumentparser.cpp:43-88, one item *)
Definition read_item (item0 : str) (e : entry) : outcome entry :=
  let item := trim item0 in
  doubledash <- firstN item 2 ;;
  singledash <- firstN item 1 ;;
  if str_eqb doubledash $"--" then
    if flag_name e then Throw InvalidArgument
    else Ok (mkEntry item (short_flag e) (desc e) (description e) (abbreviation e) true)
  else if str_eqb singledash $"-" then
    if abbreviation e then Throw InvalidArgument
    else Ok (mkEntry (full_flag e) item (desc e) (description e) true (flag_name e))
  else
    if description e then Throw InvalidArgument
    else Ok (mkEntry (full_flag e) (short_flag e) item true (abbreviation e) (flag_name e)).
(** the maxima of lines 58, 71 and 84 are raised at each item; here after the
    last one (same result: each of the three names is set at most once) *)
Definition read_entry {E} (flag : list str) (P : parser E) : outcome (parser E) :=
  if (3 <? Z.of_nat (length flag)) then Throw InvalidArgument else
  e <- for_each flag read_item (mkEntry NO_FLAG NO_SHORT NO_DESC false false false) ;;
  if negb (flag_name e) then Throw InvalidArgument else
  Ok (mkParser (str_arg P) (switch_arg P) (int_arg P) (double_arg P) (file_arg P)
        (m_set (full_flag e) (short_flag e, desc e) (flags P))
        (m_set (full_flag e) false (defaults_set P))
        (int_values P) (double_values P) (string_values P) (size_t_values P)
        (if abbreviation e then Z.max (maxShort P) (len (short_flag e)) else maxShort P)
        (Z.max (maxFull P) (len (full_flag e)))
        (if description e then Z.max (maxDesc P) (len (desc e)) else maxDesc P)).
(** argumentparser.hpp:22-41: the members before anything is registered *)
Definition empty_parser E : parser E := mkParser [] [] [] [] [] [] [] [] [] [] [] 0 0 0.
(** argumentparser.cpp:16-94; [flags] is the sorted list of a set *)
Definition ArgumentParser (E : env) (flags : list (list str)) : outcome (parser E) :=
  for_each (vs_insert help_entry flags) read_entry (empty_parser E).

(** argumentparser.cpp:96-141: the printed text.  A run of blanks is kept as a
    number (size_t). *)
Inductive piece := Text (s : str) | Blanks (n : Z) | Endl.
(** argumentparser.cpp:126-136 *)
Fixpoint usage_words (allowed space : Z) (words : list str) (words_size : Z) : list piece :=
  match words with
  | [] => []
  | w :: t =>
    let words_size := size_t (words_size + len w + 1) in
    if words_size <? allowed then Text (w ++ $" ") :: usage_words allowed space t words_size
    else Endl :: Blanks space :: Text (w ++ $" ") :: usage_words allowed space t 0
  end.
(** argumentparser.cpp:102-139, one flag *)
Definition usage_flag (mf ms : Z) (it : str * (str * str)) : list piece :=
  let space := size_t (mf + ms + 2) in
  [Text (fst it); Blanks (size_t (mf - len (fst it)) + 1);
   Text (fst (snd it)); Blanks (size_t (ms - len (fst (snd it))) + 1)]
  ++ usage_words (size_t (80 - space)) space (splitSt (snd (snd it))) 0 ++ [Endl; Endl].
(** argumentparser.cpp:96-141 *)
Definition showUsage {E} (P : parser E) : list piece :=
  [Endl; Endl; Text $"Options:"; Endl; Endl] ++
  concat (map (usage_flag (maxFull P) (maxShort P)) (flags P)) ++ [Endl].

Section Parser.
Context {E : env}.
Implicit Types (P : parser E) (a : arg E).

(** assignment to str_arg_ (argumentparser.hpp:22; the next ones 23-39) *)
Definition with_str (m : smap (arg E)) P := mkParser m (switch_arg P) (int_arg P) (double_arg P) (file_arg P) (flags P) (defaults_set P) (int_values P) (double_values P) (string_values P) (size_t_values P) (maxShort P) (maxFull P) (maxDesc P).
(** assignment to switch_arg_ *)
Definition with_switch (m : smap (arg E)) P := mkParser (str_arg P) m (int_arg P) (double_arg P) (file_arg P) (flags P) (defaults_set P) (int_values P) (double_values P) (string_values P) (size_t_values P) (maxShort P) (maxFull P) (maxDesc P).
(** assignment to int_arg_ *)
Definition with_int (m : smap (arg E)) P := mkParser (str_arg P) (switch_arg P) m (double_arg P) (file_arg P) (flags P) (defaults_set P) (int_values P) (double_values P) (string_values P) (size_t_values P) (maxShort P) (maxFull P) (maxDesc P).
(** assignment to double_arg_ *)
Definition with_double (m : smap (arg E)) P := mkParser (str_arg P) (switch_arg P) (int_arg P) m (file_arg P) (flags P) (defaults_set P) (int_values P) (double_values P) (string_values P) (size_t_values P) (maxShort P) (maxFull P) (maxDesc P).
(** assignment to file_arg_ *)
Definition with_file (m : smap (arg E)) P := mkParser (str_arg P) (switch_arg P) (int_arg P) (double_arg P) m (flags P) (defaults_set P) (int_values P) (double_values P) (string_values P) (size_t_values P) (maxShort P) (maxFull P) (maxDesc P).
(** assignment to int_values_ *)
Definition with_ints (m : smap Z) P := mkParser (str_arg P) (switch_arg P) (int_arg P) (double_arg P) (file_arg P) (flags P) (defaults_set P) m (double_values P) (string_values P) (size_t_values P) (maxShort P) (maxFull P) (maxDesc P).
(** assignment to double_values_ *)
Definition with_dbls (m : smap (D E)) P := mkParser (str_arg P) (switch_arg P) (int_arg P) (double_arg P) (file_arg P) (flags P) (defaults_set P) (int_values P) m (string_values P) (size_t_values P) (maxShort P) (maxFull P) (maxDesc P).
(** assignment to string_values_ *)
Definition with_strs (m : smap str) P := mkParser (str_arg P) (switch_arg P) (int_arg P) (double_arg P) (file_arg P) (flags P) (defaults_set P) (int_values P) (double_values P) m (size_t_values P) (maxShort P) (maxFull P) (maxDesc P).
(** assignment to size_t_values_ *)
Definition with_sizes (m : smap Z) P := mkParser (str_arg P) (switch_arg P) (int_arg P) (double_arg P) (file_arg P) (flags P) (defaults_set P) (int_values P) (double_values P) (string_values P) m (maxShort P) (maxFull P) (maxDesc P).
(** assignment to defaults_set_ *)
Definition with_defaults (m : smap bool) P := mkParser (str_arg P) (switch_arg P) (int_arg P) (double_arg P) (file_arg P) (flags P) m (int_values P) (double_values P) (string_values P) (size_t_values P) (maxShort P) (maxFull P) (maxDesc P).

(** argumentparser.cpp:143-201.  (For doubles line 186 tests file_arg_.) *)
Definition addFlagArg (flag argname : str) P : outcome (parser E) :=
  if str_eqb argname $"ARGUMENT_INT" then
    if m_has flag (int_arg P) then Throw InvalidArgument else Ok (with_int (m_set flag (ArgumentInt E) (int_arg P)) P)
  else if str_eqb argname $"ARGUMENT_SWITCH" then
    if m_has flag (switch_arg P) then Throw InvalidArgument else Ok (with_switch (m_set flag (ArgumentSwitch E) (switch_arg P)) P)
  else if str_eqb argname $"ARGUMENT_STRING" then
    if m_has flag (str_arg P) then Throw InvalidArgument else Ok (with_str (m_set flag (ArgumentString E) (str_arg P)) P)
  else if str_eqb argname $"ARGUMENT_FILE" then
    if m_has flag (file_arg P) then Throw InvalidArgument else Ok (with_file (m_set flag (ArgumentFile E) (file_arg P)) P)
  else if str_eqb argname $"ARGUMENT_DOUBLE" then
    if m_has flag (file_arg P) then Throw InvalidArgument else Ok (with_double (m_set flag (ArgumentDouble E) (double_arg P)) P)
  else Throw InvalidArgument.

(** argumentparser.cpp:203-221 *)
Definition setFlagDefaultValue_int (flag : str) (v : Z) P :=
  with_defaults (m_set flag true (defaults_set P)) (with_ints (m_set flag v (int_values P)) P).
(** argumentparser.cpp:208-211 *)
Definition setFlagDefaultValue_size (flag : str) (v : Z) P :=
  with_defaults (m_set flag true (defaults_set P)) (with_sizes (m_set flag v (size_t_values P)) P).
(** argumentparser.cpp:213-216 *)
Definition setFlagDefaultValue_dbl (flag : str) (v : D E) P :=
  with_defaults (m_set flag true (defaults_set P)) (with_dbls (m_set flag v (double_values P)) P).
(** argumentparser.cpp:218-221 *)
Definition setFlagDefaultValue_str (flag : str) (v : str) P :=
  with_defaults (m_set flag true (defaults_set P)) (with_strs (m_set flag v (string_values P)) P).

(** "take the object of the flag, or a new one; change it; store it" *)
Definition update_arg (new : arg E) (flag : str) (f : arg E -> outcome (arg E)) (m : smap (arg E)) : outcome (smap (arg E)) :=
  a' <- f (match m_find flag m with Some a => a | None => new end) ;; Ok (m_set flag a' m).

(** argumentparser.cpp:223-276 *)
Definition setFlagArgOpt_int (flag argname property opt : str) (val : Z) P : outcome (parser E) :=
  if str_eqb argname $"ARGUMENT_INT" then
    m <- update_arg (ArgumentInt E) flag (setArgPropertyOpt_int E property opt val) (int_arg P) ;; Ok (with_int m P)
  else if str_eqb argname $"ARGUMENT_STRING" then
    m <- update_arg (ArgumentString E) flag (setArgPropertyOpt_int E property opt val) (str_arg P) ;; Ok (with_str m P)
  else if str_eqb argname $"ARGUMENT_SWITCH" then
    if val =? 0 then
      m <- update_arg (ArgumentSwitch E) flag (setArgPropertyOpt_str E property opt $"OFF") (switch_arg P) ;; Ok (with_switch m P)
    else if val =? 1 then
      m <- update_arg (ArgumentSwitch E) flag (setArgPropertyOpt_str E property opt $"ON") (switch_arg P) ;; Ok (with_switch m P)
    else Throw InvalidArgument
  else if str_eqb argname $"ARGUMENT_FILE" then
    m <- update_arg (ArgumentFile E) flag (setArgPropertyOpt_int E property opt val) (file_arg P) ;; Ok (with_file m P)
  else Throw InvalidArgument.
(** argumentparser.cpp:278-300 *)
Definition setFlagArgOpt_dbl (flag argname property opt : str) (val : D E) P : outcome (parser E) :=
  if str_eqb argname $"ARGUMENT_DOUBLE" then
    m <- update_arg (ArgumentDouble E) flag (setArgPropertyOpt_dbl E property opt val) (double_arg P) ;; Ok (with_double m P)
  else if str_eqb argname $"ARGUMENT_STRING" then
    m <- update_arg (ArgumentString E) flag (setArgPropertyOpt_dbl E property opt val) (str_arg P) ;; Ok (with_str m P)
  else Throw InvalidArgument.
(** argumentparser.cpp:302-361 *)
Definition setFlagArgOpt_str (flag argname property opt : str) (val : str) P : outcome (parser E) :=
  if str_eqb argname $"ARGUMENT_FILE" then
    let f a :=
      if str_eqb property $"PROPERTY_FILE_EXT" then setArgPropertyOpt_set E property opt [val] a
      else if negb (m_has flag (file_arg P)) && str_eqb property $"PROPERTY_SISTER_FILE_EXT" then setArgPropertyOpt_vec E property opt [val] a
      else setArgPropertyOpt_str E property opt val a in
    m <- update_arg (ArgumentFile E) flag f (file_arg P) ;; Ok (with_file m P)
  else if str_eqb argname $"ARGUMENT_SWITCH" then
    if negb (str_eqb val $"OFF") && negb (str_eqb val $"ON") then Throw InvalidArgument else
    m <- update_arg (ArgumentSwitch E) flag (setArgPropertyOpt_str E property opt val) (switch_arg P) ;; Ok (with_switch m P)
  else if str_eqb argname $"ARGUMENT_STRING" then
    m <- update_arg (ArgumentString E) flag (setArgPropertyOpt_set E property opt [val]) (str_arg P) ;; Ok (with_str m P)
  else Throw InvalidArgument.
(** argumentparser.cpp:363-385 *)
Definition setFlagArgOpt_set (flag argname property opt : str) (vals : list str) P : outcome (parser E) :=
  if str_eqb argname $"ARGUMENT_FILE" then
    m <- update_arg (ArgumentFile E) flag (setArgPropertyOpt_set E property opt vals) (file_arg P) ;; Ok (with_file m P)
  else if str_eqb argname $"ARGUMENT_STRING" then
    m <- update_arg (ArgumentString E) flag (setArgPropertyOpt_set E property opt vals) (str_arg P) ;; Ok (with_str m P)
  else Throw InvalidArgument.
(** argumentparser.cpp:387-401 *)
Definition setFlagArgOpt_vec (flag argname property opt : str) (vals : list str) P : outcome (parser E) :=
  if str_eqb argname $"ARGUMENT_FILE" then
    m <- update_arg (ArgumentFile E) flag (setArgPropertyOpt_vec E property opt vals) (file_arg P) ;; Ok (with_file m P)
  else Throw InvalidArgument.

(** argumentparser.cpp:403-416 *)
Definition is_a_flag P (w : str) : bool :=
  existsb (fun it => str_eqb (fst it) w || str_eqb (fst (snd it)) w) (flags P).
(** argumentparser.cpp:403-416 *)
Definition nextParameterIsAFlag_ (index : nat) (arguments : list str) P : bool :=
  match nth_error arguments (index + 1) with Some w => is_a_flag P w | None => false end.

(** argumentparser.cpp:419-428 *)
Fixpoint by_abbreviation (w : str) (fl : smap (str * str)) : str :=
  match fl with [] => w | it :: t => if str_eqb (fst (snd it)) w then fst it else by_abbreviation w t end.
(** argumentparser.cpp:419-428 *)
Definition resolve P (w : str) : str := if m_has w (flags P) then w else by_abbreviation w (flags P).

(** the state inside parseArg_: (index, parser, unrecognized) *)
Definition pstate := (nat * parser E * bool)%type.

(** argumentparser.cpp:436-444 (= 478-486, 492-500, 506-514) "the word after
    the flag": fetch it or fail *)
Definition next_word (index : nat) (arguments : list str) : outcome str :=
  match nth_error arguments (index + 1) with Some w => Ok w | None => Throw RuntimeError end.

(** argumentparser.cpp:431-446 *)
Definition parse_str (flag : str) (arguments : list str) (st : pstate) : outcome pstate :=
  let '(index, P, u) := st in
  match m_find flag (str_arg P) with
  | None => Ok st
  | Some a =>
    if negb (nextParameterIsAFlag_ index arguments P) || requiresParameter E a then
      w <- next_word index arguments ;;
      a' <- argValid_str E w a ;;
      Ok (S index, with_strs (m_set flag w (string_values P)) (with_str (m_set flag a' (str_arg P)) P), false)
    else Ok st
  end.
(** argumentparser.cpp:447-474 (the index is not advanced) *)
Definition parse_switch (flag : str) (arguments : list str) (st : pstate) : outcome pstate :=
  let '(index, P, u) := st in
  match m_find flag (switch_arg P) with
  | None => Ok st
  | Some a =>
    if negb (nextParameterIsAFlag_ index arguments P) then
      match nth_error arguments (index + 1) with
      | None => if requiresParameter E a then Throw RuntimeError
                else Ok (index, with_ints (m_set flag 1 (int_values P)) P, false)
      | Some w =>
        a' <- argValid_str E w a ;;
        let P1 := with_strs (m_set flag w (string_values P)) (with_switch (m_set flag a' (switch_arg P)) P) in
        b <- positive_str w ;;
        Ok (index, with_ints (m_set flag (if b : bool then 1 else 0) (int_values P)) P1, false)
      end
    else Ok (index, with_ints (m_set flag 1 (int_values P)) P, false)
  end.
(** argumentparser.cpp:475-488 *)
Definition parse_int (flag : str) (arguments : list str) (st : pstate) : outcome pstate :=
  let '(index, P, u) := st in
  match m_find flag (int_arg P) with
  | None => Ok st
  | Some a =>
    if negb (nextParameterIsAFlag_ index arguments P) || requiresParameter E a then
      w <- next_word index arguments ;;
      v <- stoi w ;;
      a' <- argValid_int E v a ;;
      Ok (S index, with_ints (m_set flag v (int_values P)) (with_int (m_set flag a' (int_arg P)) P), false)
    else Ok st
  end.
(** argumentparser.cpp:489-502 *)
Definition parse_double (flag : str) (arguments : list str) (st : pstate) : outcome pstate :=
  let '(index, P, u) := st in
  match m_find flag (double_arg P) with
  | None => Ok st
  | Some a =>
    if negb (nextParameterIsAFlag_ index arguments P) || requiresParameter E a then
      w <- next_word index arguments ;;
      v <- e_stod E w ;;
      a' <- argValid_dbl E v a ;;
      Ok (S index, with_dbls (m_set flag v (double_values P)) (with_double (m_set flag a' (double_arg P)) P), false)
    else Ok st
  end.
(** argumentparser.cpp:503-516 *)
Definition parse_file (flag : str) (arguments : list str) (st : pstate) : outcome pstate :=
  let '(index, P, u) := st in
  match m_find flag (file_arg P) with
  | None => Ok st
  | Some a =>
    if negb (nextParameterIsAFlag_ index arguments P) || requiresParameter E a then
      w <- next_word index arguments ;;
      a' <- argValid_str E w a ;;
      Ok (S index, with_strs (m_set flag w (string_values P)) (with_file (m_set flag a' (file_arg P)) P), false)
    else Ok st
  end.
(** argumentparser.cpp:418-521 *)
Definition parseArg_ (index : nat) (arguments : list str) P : outcome (nat * parser E) :=
  match nth_error arguments index with
  | None => Throw OutOfRange
  | Some w =>
    let flag := resolve P w in
    s1 <- parse_str flag arguments (index, P, true) ;;
    s2 <- parse_switch flag arguments s1 ;;
    s3 <- parse_int flag arguments s2 ;;
    s4 <- parse_double flag arguments s3 ;;
    s5 <- parse_file flag arguments s4 ;;
    let '(index', P', unrecognized) := s5 in
    if unrecognized : bool then Throw InvalidArgument else Ok (index', P')
  end.

(** argumentparser.cpp:523-557 *)
Definition flag_value (m : smap (arg E)) (flag argname property opt : str) : option (outcome str) :=
  match m_find flag m with
  | Some a => if str_eqb (arg_name (a_kind E a)) argname then Some (getPropertyValues E a property opt) else None
  | None => None
  end.
(** argumentparser.cpp:523-557 *)
Definition getFlagArgOptValue P (flag argname property opt : str) : outcome str :=
  match orelse (flag_value (str_arg P) flag argname property opt)
       (orelse (flag_value (switch_arg P) flag argname property opt)
       (orelse (flag_value (file_arg P) flag argname property opt)
               (flag_value (int_arg P) flag argname property opt))) with
  | Some r => r
  | None => Throw InvalidArgument
  end.

(** argumentparser.cpp:559-577 *)
Definition getInt P (flag : str) : outcome Z :=
  match m_find flag (int_values P) with
  | Some v => Ok v
  | None =>
    match m_find flag (switch_arg P), m_find flag (string_values P) with
    | Some _, Some s => b <- positive_str s ;; Ok (if b : bool then 1 else 0)
    | _, _ => Throw InvalidArgument
    end
  end.
(** argumentparser.cpp:579-587 *)
Definition getDouble P (flag : str) : outcome (D E) :=
  match m_find flag (double_values P) with Some v => Ok v | None => Throw InvalidArgument end.
(** argumentparser.cpp:589-606 *)
Definition getStr P (flag : str) : outcome str :=
  match m_find flag (string_values P) with
  | Some v => Ok v
  | None =>
    match m_find flag (switch_arg P), m_find flag (int_values P) with
    | Some _, Some v => Ok (if positive_int v then $"ON" else $"OFF")
    | _, _ => Throw InvalidArgument
    end
  end.
(** argumentparser.cpp:608-616 *)
Definition getSize_t P (flag : str) : outcome Z :=
  match m_find flag (size_t_values P) with Some v => Ok v | None => Throw InvalidArgument end.

(** argumentparser.cpp:618-635 *)
Definition postParseCheck P : outcome unit :=
  let check (m : smap (arg E)) := for_each m (fun it _ => postArgCheck E (snd it)) tt in
  check (str_arg P) ;;; check (switch_arg P) ;;; check (int_arg P) ;;; check (double_arg P) ;;; check (file_arg P).

(** argumentparser.cpp:648-649, 657-658 *)
Definition is_help (w : str) : bool := str_eqb w $"--help" || str_eqb w $"-h".
(** argumentparser.cpp:652-653, 665-666 *)
Definition is_version (w : str) : bool := str_eqb w $"--version" || str_eqb w $"-version".
(** argumentparser.cpp:650-651, 668-669 *)
Definition is_citation (w : str) : bool := str_eqb w $"--citation" || str_eqb w $"-cite".
(** argumentparser.cpp:655-684; every round increases the index, so [length]
    rounds are enough *)
Fixpoint parse_loop (fuel : nat) (arguments : list str) (index allowed : nat) P : outcome (parser E) :=
  match fuel with
  | O => NoFuel
  | S f =>
    match nth_error arguments index with
    | None => Ok P
    | Some w =>
      if is_help w then
        if (allowed =? length arguments)%nat then Exit 0 else parse_loop f arguments (S index) (S allowed) P
      else if is_version w then Exit 0
      else if is_citation w then
        if (allowed =? length arguments)%nat then Exit 0 else parse_loop f arguments (S index) (S allowed) P
      else
        r <- parseArg_ index arguments P ;;
        parse_loop f arguments (S (fst r)) allowed (snd r)
    end
  end.
(** argumentparser.cpp:637-687; [arguments] includes the program name *)
Definition parse (arguments : list str) P : outcome (parser E) :=
  match arguments with
  | [] => Throw OutOfRange
  | [_] => Throw RuntimeError
  | _ => P' <- parse_loop (length arguments) arguments 1 2 P ;; postParseCheck P' ;;; Ok P'
  end.
End Parser.

(** ** io.cpp:15-333 prepareParser; the flags of lines 18-195 with their descriptions *)
Definition catnip_flags : list (list str) :=
  [[$"--pun_P"; $"-p_P"; $"File contains the atomic orbital coefficients of the dimer of both monomer units. Must have the .pun/.orb/.7 file extension. This file is in the same format as the fort.7 file that comes out of a Gaussian run."];
   [$"--pun_1"; $"-p_1"; $"File contains the atomic orbital coefficients of monomer 1. Must have the .pun/.orb/.7 file extension. This file is in the same format as the fort.7 file that comes out of a Gaussian run."];
   [$"--pun_2"; $"-p_2"; $"File contains the atomic orbital coefficients of monomer 2. Must have the .pun/.orb/.7 file extension. This file is in the same format as the fort.7 file that comes out of a Gaussian run."];
   [$"--log_P"; $"-l_P"; $"File contains the log output from a guassian run of a dimer system. It is used to determine the orbital energies, the HOMO and LUMO levels and the number of basis functions per atom if provided. The file must have the .log extension to be read."];
   [$"--log_1"; $"-l_1"; $"File contains the log output from a guassian run of monomer 1. It is used to determine the orbital energies, the HOMO and LUMO levels and the number of basis functions per atom if provided. The file must have the .log extension to be read."];
   [$"--log_2"; $"-l_2"; $"File contains the log output from a guassian run of monomer 2. It is used to determine the orbital energies, the HOMO and LUMO levels and the number of basis functions per atom if provided. The file must have the .log extension to be read."];
   [$"--spin_P"; $"-s_P"; $"Specify which spin should be used for the dimer when running the transfer integral calculations. By default the same spin will be used for monomer 1, 2 and the dimer. The options are alpha or beta."];
   [$"--spin_1"; $"-s_1"; $"Specify which spin should be used for monomer 1 when running the transfer integral calculations. By default the same spin will be used for monomer 1, 2 and the dimer. The options are alpha or beta."];
   [$"--spin_2"; $"-s_2"; $"Specify which spin should be used for monomer 2 when running the transfer integral calculations. By default the same spin will be used for monomer 1, 2 and the dimer. The options are alpha or beta."];
   [$"--orbital_type_1"; $"-orb_ty_1"; $"Specify which orbital type will be used for monomer 1. By default the HOMO will be used. Your options are HOMO or LUMO."];
   [$"--orbital_type_2"; $"-orb_ty_2"; $"Specify which orbital type will be used for monomer 2. By default the HOMO will be used. Your options are HOMO or LUMO."];
   [$"--orbital_num_1"; $"-orb_num_1"; $"Specify which orbital will be used for monomer 1. If you specified an orbital type of HOMO you must use 0 to indicate HOMO or a negative number. E.g. a value of -1 would access the HOMO-1. If the LUMO is specified 0 - represents the LUMO and is the default. To access another orbital specify a positive number. E.g. 4 would access the LUMO+4."];
   [$"--orbital_num_2"; $"-orb_num_2"; $"Specify which orbital will be used for monomer 2. If you specified an orbital type of HOMO you must use 0 to indicate HOMO or a negative number. E.g. a value of -1 would access the HOMO-1. If the LUMO is specified 0 - represents the LUMO and is the default. To access another orbital specify a positive number. E.g. 4 would access the LUMO+4."];
   [$"--counter_poise"; $"-cp"; $"Specify that the counter poise correction is being taken into account this means that there should be the same number of basis functions for the dimer as there are for each of the monomers."];
   [$"--citation"; $"-cite"; $"Print software citation."];
   [$"--version"; $"-v"; $"Print the version"]].

(** io.cpp:196-201 (= 203-208, 210-215) *)
Definition pun_rules {E} (flag : str) (P : parser E) : outcome (parser E) :=
  P <- setFlagArgOpt_set flag $"ARGUMENT_FILE" $"PROPERTY_FILE_EXT" $"ALLOWED_FILE_EXT" (set_of [$".orb"; $".7"; $".pun"]) P ;;
  P <- setFlagArgOpt_str flag $"ARGUMENT_FILE" $"PROPERTY_SISTER_FILE" $"ALLOWED_SISTER_FILE_EXT" $".log" P ;;
  setFlagArgOpt_int flag $"ARGUMENT_FILE" $"PROPERTY_FILE_EXIST" $"FILE_MUST_EXIST" 0 P.
(** io.cpp:224-229 (= 231-236, 238-243) *)
Definition log_rules {E} (flag : str) (P : parser E) : outcome (parser E) :=
  P <- setFlagArgOpt_set flag $"ARGUMENT_FILE" $"PROPERTY_FILE_EXT" $"ALLOWED_FILE_EXT" (set_of [$".log"]) P ;;
  P <- setFlagArgOpt_vec flag $"ARGUMENT_FILE" $"PROPERTY_SISTER_FILE" $"ALLOWED_SISTER_FILE_EXT" [$".orb"; $".7"; $".pun"] P ;;
  setFlagArgOpt_int flag $"ARGUMENT_FILE" $"PROPERTY_FILE_EXIST" $"FILE_MUST_EXIST" 0 P.
(** io.cpp:250-255 (= 257-269, 279-291) *)
Definition choice_rules {E} (choices : list str) (flag : str) (P : parser E) : outcome (parser E) :=
  P <- setFlagArgOpt_str flag $"ARGUMENT_STRING" $"PROPERTY_STRING_CHOICE" $"STRING_CHOICE_ENFORCED" s_true P ;;
  setFlagArgOpt_set flag $"ARGUMENT_STRING" $"PROPERTY_STRING_CHOICE" $"STRING_CHOICES" (set_of choices) P.
(** io.cpp:299-303 (= 307-311, 315-319) *)
Definition switch_rules {E} (flag : str) (P : parser E) : outcome (parser E) :=
  P <- setFlagArgOpt_str flag $"ARGUMENT_SWITCH" $"PROPERTY_SWITCH" $"DEFAULT" $"OFF" P ;;
  Ok (setFlagDefaultValue_str flag $"OFF" P).

(** io.cpp:15-333 *)
Definition prepareParser (E : env) : outcome (parser E) :=
  P <- ArgumentParser E (fold_left (fun s k => vs_insert k s) catnip_flags []) ;;
  P <- for_each [$"--pun_P"; $"--pun_1"; $"--pun_2"] pun_rules P ;;
  P <- for_each [$"--log_P"; $"--log_1"; $"--log_2"] log_rules P ;;
  P <- for_each [$"--spin_P"; $"--spin_1"; $"--spin_2"] (choice_rules [$"Alpha"; $"Beta"]) P ;;
  let P := setFlagDefaultValue_str $"--spin_P" $"Alpha" P in
  let P := setFlagDefaultValue_str $"--spin_1" $"Alpha" P in
  let P := setFlagDefaultValue_str $"--spin_2" $"Alpha" P in
  P <- for_each [$"--orbital_type_1"; $"--orbital_type_2"] (choice_rules [$"HOMO"; $"LUMO"]) P ;;
  let P := setFlagDefaultValue_str $"--orbital_type_1" $"HOMO" P in
  let P := setFlagDefaultValue_str $"--orbital_type_2" $"HOMO" P in
  P <- for_each [$"--counter_poise"; $"--citation"; $"--version"] switch_rules P ;;
  P <- addFlagArg $"--orbital_num_1" $"ARGUMENT_INT" P ;;
  P <- addFlagArg $"--orbital_num_2" $"ARGUMENT_INT" P ;;
  let P := setFlagDefaultValue_int $"--orbital_num_1" 0 P in
  let P := setFlagDefaultValue_int $"--orbital_num_2" 0 P in
  Ok P.

(** ** parameters.hpp: [None] is the uninitialised [citation] of the constructor *)
Record params := mkParams {
  log1 : str; log2 : str; logP : str; pun1 : str; pun2 : str; punP : str;
  spinP : str; spin1 : str; spin2 : str; orb_typeP : str; orb_type1 : str; orb_type2 : str;
  orb_numP : Z; orb_num1 : Z; orb_num2 : Z; citation : option bool; counterPoise : bool }.
(** parameters.hpp: the constructor *)
Definition Parameters : params := mkParams [] [] [] [] [] [] [] [] [] [] [] [] 0 0 0 None false.

(** parameters.cpp:9-14: the check shared by the six file setters *)
Definition check_ext (ext file : str) : outcome unit :=
  e <- lastN file 4 ;; if str_eqb e ext then Ok tt else Throw InvalidArgument.
(** parameters.cpp:9-44 *)
Definition setLog1 (s : str) (p : params) : outcome params := check_ext $".log" s ;;; Ok (mkParams s (log2 p) (logP p) (pun1 p) (pun2 p) (punP p) (spinP p) (spin1 p) (spin2 p) (orb_typeP p) (orb_type1 p) (orb_type2 p) (orb_numP p) (orb_num1 p) (orb_num2 p) (citation p) (counterPoise p)).
(** parameters.cpp:16-20 *)
Definition setLog2 (s : str) (p : params) : outcome params := check_ext $".log" s ;;; Ok (mkParams (log1 p) s (logP p) (pun1 p) (pun2 p) (punP p) (spinP p) (spin1 p) (spin2 p) (orb_typeP p) (orb_type1 p) (orb_type2 p) (orb_numP p) (orb_num1 p) (orb_num2 p) (citation p) (counterPoise p)).
(** parameters.cpp:22-26 *)
Definition setLogP (s : str) (p : params) : outcome params := check_ext $".log" s ;;; Ok (mkParams (log1 p) (log2 p) s (pun1 p) (pun2 p) (punP p) (spinP p) (spin1 p) (spin2 p) (orb_typeP p) (orb_type1 p) (orb_type2 p) (orb_numP p) (orb_num1 p) (orb_num2 p) (citation p) (counterPoise p)).
(** parameters.cpp:28-32 *)
Definition setPun1 (s : str) (p : params) : outcome params := check_ext $".pun" s ;;; Ok (mkParams (log1 p) (log2 p) (logP p) s (pun2 p) (punP p) (spinP p) (spin1 p) (spin2 p) (orb_typeP p) (orb_type1 p) (orb_type2 p) (orb_numP p) (orb_num1 p) (orb_num2 p) (citation p) (counterPoise p)).
(** parameters.cpp:34-38 *)
Definition setPun2 (s : str) (p : params) : outcome params := check_ext $".pun" s ;;; Ok (mkParams (log1 p) (log2 p) (logP p) (pun1 p) s (punP p) (spinP p) (spin1 p) (spin2 p) (orb_typeP p) (orb_type1 p) (orb_type2 p) (orb_numP p) (orb_num1 p) (orb_num2 p) (citation p) (counterPoise p)).
(** parameters.cpp:40-44 *)
Definition setPunP (s : str) (p : params) : outcome params := check_ext $".pun" s ;;; Ok (mkParams (log1 p) (log2 p) (logP p) (pun1 p) (pun2 p) s (spinP p) (spin1 p) (spin2 p) (orb_typeP p) (orb_type1 p) (orb_type2 p) (orb_numP p) (orb_num1 p) (orb_num2 p) (citation p) (counterPoise p)).
(** parameters.hpp: setSpinP ... setCitation, in the order prepareParameters calls them *)
Definition set_rest (sP s1 s2 : str) (cp cite : bool) (t1 : str) (n1 : Z) (t2 : str) (n2 : Z) (p : params) : params :=
  mkParams (log1 p) (log2 p) (logP p) (pun1 p) (pun2 p) (punP p) sP s1 s2 (orb_typeP p) t1 t2 (orb_numP p) n1 n2 (Some cite) cp.

(** ** io.cpp:335-465 prepareParameters *)
Section Prepare.
Context {E : env}.
(** io.cpp:353-371: [flag_arg] and [flag_sister_arg] after one pair of flags *)
Definition resolve_flag (P : parser E) (ff : str * str) (m : smap str * smap str) : outcome (smap str * smap str) :=
  let '(flag, flag_sister) := ff in
  ex <- getFlagArgOptValue P flag $"ARGUMENT_FILE" $"PROPERTY_FILE_EXIST" $"FILE_DOES_EXIST" ;;
  fa <- (if str_eqb ex $"1" then s <- getStr P flag ;; Ok (m_set flag s (fst m)) else Ok (fst m)) ;;
  line <- getFlagArgOptValue P flag $"ARGUMENT_FILE" $"PROPERTY_SISTER_FILE" $"SISTER_FILE_EXISTS" ;;
  line2 <- getFlagArgOptValue P flag $"ARGUMENT_FILE" $"PROPERTY_SISTER_FILE" $"SISTER_FILE_PATH_NAME" ;;
  let sister_file_paths := splitSt line2 in
  r <- for_each (splitSt line) (fun se (st : Z * smap str) =>
         fs <- (if str_eqb se s_true then v <- vat sister_file_paths (fst st) ;; Ok (m_set flag_sister v (snd st)) else Ok (snd st)) ;;
         Ok (fst st + 1, fs)) (0, snd m) ;;
  Ok (fa, snd r).
(** io.cpp:376-382 (= 383-389, 390-396, 397-403, 404-410, 411-417) *)
Definition pick (m : smap str * smap str) (flag : str) : outcome str :=
  match m_find flag (fst m) with
  | Some f => Ok f
  | None => match m_find flag (snd m) with Some f => Ok f | None => Throw RuntimeError end
  end.
(** io.cpp:430-444 (= 448-462); the type is stored even if it is neither HOMO nor LUMO,
    the number then stays 0 *)
Definition orbital (P : parser E) (tflag nflag : str) : outcome (str * Z) :=
  ty <- getStr P tflag ;;
  if str_eqb ty $"HOMO" then
    MO <- getInt P nflag ;; if 0 <? MO then Throw InvalidArgument else Ok (ty, MO)
  else if str_eqb ty $"LUMO" then
    MO <- getInt P nflag ;; if MO <? 0 then Throw InvalidArgument else Ok (ty, MO)
  else Ok (ty, 0).
(** io.cpp:335-465 *)
Definition prepareParameters (P : parser E) : outcome params :=
  m <- for_each [($"--pun_P", $"--log_P"); ($"--pun_1", $"--log_1"); ($"--pun_2", $"--log_2");
                 ($"--log_P", $"--pun_P"); ($"--log_1", $"--pun_1"); ($"--log_2", $"--pun_2")] (resolve_flag P) ([], []) ;;
  f <- pick m $"--pun_P" ;; p <- setPunP f Parameters ;;
  f <- pick m $"--pun_1" ;; p <- setPun1 f p ;;
  f <- pick m $"--pun_2" ;; p <- setPun2 f p ;;
  f <- pick m $"--log_P" ;; p <- setLogP f p ;;
  f <- pick m $"--log_1" ;; p <- setLog1 f p ;;
  f <- pick m $"--log_2" ;; p <- setLog2 f p ;;
  sP <- getStr P $"--spin_P" ;;
  s1 <- getStr P $"--spin_1" ;;
  s2 <- getStr P $"--spin_2" ;;
  cp <- getInt P $"--counter_poise" ;;
  cite <- getInt P $"--citation" ;;
  o1 <- orbital P $"--orbital_type_1" $"--orbital_num_1" ;;
  o2 <- orbital P $"--orbital_type_2" $"--orbital_num_2" ;;
  Ok (set_rest sP s1 s2 (negb (cp =? 0)) (negb (cite =? 0)) (fst o1) (snd o1) (fst o2) (snd o2) p).
End Prepare.
