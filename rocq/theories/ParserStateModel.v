(** * argumentparser.cpp: the parser an exception leaves behind

    [parse] of ParserModel returns the changed parser or the exception.  Here the
    parser is changed in place, statement by statement: the result is the parser as
    the call leaves it, and how the call ended. *)
From Verif Require Export ParserModel.
Open Scope Z_scope.

(** statements on an object of type [S] with a value of type [A] *)
Definition stm (S A : Type) := S -> S * outcome A.
(** return a value *)
Definition yields {S A} (a : A) : stm S A := fun s => (s, Ok a).
(** an expression that changes nothing *)
Definition reads {S A} (x : outcome A) : stm S A := fun s => (s, x).
(** a function that has changed nothing when an exception leaves it *)
Definition whole {S} (f : S -> outcome S) : stm S unit := fun s =>
  match f s with Ok s' => (s', Ok tt) | Throw e => (s, Throw e) | Exit n => (s, Exit n) | Undef u => (s, Undef u) | NoFuel => (s, NoFuel) end.
(** assignment to the object *)
Definition assigns {S} (f : S -> S) : stm S unit := fun s => (f s, Ok tt).
(** sequence; an exception keeps the state reached so far *)
Definition andthen {S A B} (a : stm S A) (b : A -> stm S B) : stm S B := fun s =>
  match a s with
  | (s', Ok v) => b v s' | (s', Throw e) => (s', Throw e) | (s', Exit n) => (s', Exit n)
  | (s', Undef u) => (s', Undef u) | (s', NoFuel) => (s', NoFuel)
  end.
(** a statement on a part of the object *)
Definition part {S T A} (get : S -> T) (put : T -> S -> S) (a : stm T A) : stm S A := fun s =>
  (put (fst (a (get s))) s, snd (a (get s))).
(** for (auto x : l) a(x) *)
Fixpoint each_on {T} (a : stm T unit) (l : list T) : list T * outcome unit :=
  match l with
  | [] => ([], Ok tt)
  | x :: t => match a x with
              | (y, Ok _) => (y :: fst (each_on a t), snd (each_on a t))
              | (y, o) => (y :: t, o)
              end
  end.

Section State.
Context {E : env}.

(** argumentobject.hpp:30-49 and 400-403 for string arguments.  The functions
    propValid of the single properties change nothing when they throw:
    propertyfileexist.cpp:29-42 and propertysisterfile.cpp:119-153 write last, the
    others write nothing. *)
Definition argValid_str_on (val : str) : stm (arg E) unit :=
  andthen (part (a_int E) (fun l a => mkArg E (a_kind E a) l (a_dbl E a) (a_size E a) (a_str E a) (a_set E a) (a_vec E a)) (each_on (whole (v_int E val)))) (fun _ =>
  andthen (part (a_size E) (fun l a => mkArg E (a_kind E a) (a_int E a) (a_dbl E a) l (a_str E a) (a_set E a) (a_vec E a)) (each_on (whole (v_size val)))) (fun _ =>
  andthen (part (a_str E) (fun l a => mkArg E (a_kind E a) (a_int E a) (a_dbl E a) (a_size E a) l (a_set E a) (a_vec E a)) (each_on (whole (v_str val)))) (fun _ =>
  andthen (part (a_set E) (fun l a => mkArg E (a_kind E a) (a_int E a) (a_dbl E a) (a_size E a) (a_str E a) l (a_vec E a)) (each_on (whole (v_set val)))) (fun _ =>
      part (a_vec E) (fun l a => mkArg E (a_kind E a) (a_int E a) (a_dbl E a) (a_size E a) (a_str E a) (a_set E a) l) (each_on (whole (v_vec E val))))))).
(** the same for ArgumentInt and ArgumentDouble *)
Definition argValid_int_on (val : Z) : stm (arg E) unit :=
  part (a_int E) (fun l a => mkArg E (a_kind E a) l (a_dbl E a) (a_size E a) (a_str E a) (a_set E a) (a_vec E a)) (each_on (whole (int_propValid val))).
(** argumentobject.hpp:30-49 for a double *)
Definition argValid_dbl_on (val : D E) : stm (arg E) unit :=
  part (a_dbl E) (fun l a => mkArg E (a_kind E a) (a_int E a) l (a_size E a) (a_str E a) (a_set E a) (a_vec E a)) (each_on (whole (double_propValid E val))).

(** the local variables [index] and [unrecognized] of parseArg_ *)
Definition locals := (nat * bool)%type.

(** argumentparser.cpp:431-446 *)
Definition parse_str_on (flag : str) (arguments : list str) (v : locals) : stm (parser E) locals := fun P =>
  match m_find flag (str_arg P) with
  | None => yields v P
  | Some a =>
    if negb (nextParameterIsAFlag_ (fst v) arguments P) || requiresParameter E a then
      andthen (reads (next_word (fst v) arguments)) (fun w =>
      andthen (part (fun _ => a) (fun a' P => with_str (m_set flag a' (str_arg P)) P) (argValid_str_on w)) (fun _ =>
      andthen (assigns (fun P => with_strs (m_set flag w (string_values P)) P)) (fun _ =>
      yields (S (fst v), false)))) P
    else yields v P
  end.
(** argumentparser.cpp:447-474 *)
Definition parse_switch_on (flag : str) (arguments : list str) (v : locals) : stm (parser E) locals := fun P =>
  match m_find flag (switch_arg P) with
  | None => yields v P
  | Some a =>
    if negb (nextParameterIsAFlag_ (fst v) arguments P) then
      match nth_error arguments (fst v + 1) with
      | None => if requiresParameter E a then reads (Throw RuntimeError) P
                else andthen (assigns (fun P => with_ints (m_set flag 1 (int_values P)) P)) (fun _ => yields (fst v, false)) P
      | Some w =>
        andthen (part (fun _ => a) (fun a' P => with_switch (m_set flag a' (switch_arg P)) P) (argValid_str_on w)) (fun _ =>
        andthen (assigns (fun P => with_strs (m_set flag w (string_values P)) P)) (fun _ =>
        andthen (reads (positive_str w)) (fun b =>
        andthen (assigns (fun P => with_ints (m_set flag (if b : bool then 1 else 0) (int_values P)) P)) (fun _ =>
        yields (fst v, false))))) P
      end
    else andthen (assigns (fun P => with_ints (m_set flag 1 (int_values P)) P)) (fun _ => yields (fst v, false)) P
  end.
(** argumentparser.cpp:475-488 *)
Definition parse_int_on (flag : str) (arguments : list str) (v : locals) : stm (parser E) locals := fun P =>
  match m_find flag (int_arg P) with
  | None => yields v P
  | Some a =>
    if negb (nextParameterIsAFlag_ (fst v) arguments P) || requiresParameter E a then
      andthen (reads (next_word (fst v) arguments)) (fun w =>
      andthen (reads (stoi w)) (fun n =>
      andthen (part (fun _ => a) (fun a' P => with_int (m_set flag a' (int_arg P)) P) (argValid_int_on n)) (fun _ =>
      andthen (assigns (fun P => with_ints (m_set flag n (int_values P)) P)) (fun _ =>
      yields (S (fst v), false))))) P
    else yields v P
  end.
(** argumentparser.cpp:489-502 *)
Definition parse_double_on (flag : str) (arguments : list str) (v : locals) : stm (parser E) locals := fun P =>
  match m_find flag (double_arg P) with
  | None => yields v P
  | Some a =>
    if negb (nextParameterIsAFlag_ (fst v) arguments P) || requiresParameter E a then
      andthen (reads (next_word (fst v) arguments)) (fun w =>
      andthen (reads (e_stod E w)) (fun n =>
      andthen (part (fun _ => a) (fun a' P => with_double (m_set flag a' (double_arg P)) P) (argValid_dbl_on n)) (fun _ =>
      andthen (assigns (fun P => with_dbls (m_set flag n (double_values P)) P)) (fun _ =>
      yields (S (fst v), false))))) P
    else yields v P
  end.
(** argumentparser.cpp:503-516 *)
Definition parse_file_on (flag : str) (arguments : list str) (v : locals) : stm (parser E) locals := fun P =>
  match m_find flag (file_arg P) with
  | None => yields v P
  | Some a =>
    if negb (nextParameterIsAFlag_ (fst v) arguments P) || requiresParameter E a then
      andthen (reads (next_word (fst v) arguments)) (fun w =>
      andthen (part (fun _ => a) (fun a' P => with_file (m_set flag a' (file_arg P)) P) (argValid_str_on w)) (fun _ =>
      andthen (assigns (fun P => with_strs (m_set flag w (string_values P)) P)) (fun _ =>
      yields (S (fst v), false)))) P
    else yields v P
  end.
(** argumentparser.cpp:418-521; the value is the new index *)
Definition parseArg_on (index : nat) (arguments : list str) : stm (parser E) nat := fun P =>
  match nth_error arguments index with
  | None => reads (Throw OutOfRange) P
  | Some w =>
    let flag := resolve P w in
    andthen (parse_str_on flag arguments (index, true)) (fun v =>
    andthen (parse_switch_on flag arguments v) (fun v =>
    andthen (parse_int_on flag arguments v) (fun v =>
    andthen (parse_double_on flag arguments v) (fun v =>
    andthen (parse_file_on flag arguments v) (fun v =>
    if snd v then reads (Throw InvalidArgument) else yields (fst v)))))) P
  end.
(** argumentparser.cpp:655-684 *)
Fixpoint parse_loop_on (fuel : nat) (arguments : list str) (index allowed : nat) : stm (parser E) unit :=
  match fuel with
  | O => reads NoFuel
  | S f =>
    match nth_error arguments index with
    | None => yields tt
    | Some w =>
      if is_help w then
        if (allowed =? length arguments)%nat then reads (Exit 0) else parse_loop_on f arguments (S index) (S allowed)
      else if is_version w then reads (Exit 0)
      else if is_citation w then
        if (allowed =? length arguments)%nat then reads (Exit 0) else parse_loop_on f arguments (S index) (S allowed)
      else
        andthen (parseArg_on index arguments) (fun i => parse_loop_on f arguments (S i) allowed)
    end
  end.
(** argumentparser.cpp:637-687; postParseCheck reads only *)
Definition parse_on (arguments : list str) : stm (parser E) unit :=
  match arguments with
  | [] => reads (Throw OutOfRange)
  | [_] => reads (Throw RuntimeError)
  | _ => andthen (parse_loop_on (length arguments) arguments 1 2) (fun _ => fun P => reads (postParseCheck P) P)
  end.
End State.
