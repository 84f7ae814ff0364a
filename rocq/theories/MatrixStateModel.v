(** * Matrix member functions that can throw: the object an exception leaves behind

    The functions of MatrixModel return the new object or the exception.  Here a
    member function changes the object step by step; when an exception leaves it,
    the result is the object as it is then. *)
From Verif Require Export MatrixModel.
Open Scope Z_scope.

(** a member function of type void: the object afterwards and the exception that left it, if any *)
Definition member (T : Type) := mat T -> outcome (mat T * option exn).
(** statements that read: an exception leaves the object as it is *)
Definition reading {T A} (x : mat T -> outcome A) (k : A -> member T) : member T := fun m =>
  match x m with Ok a => k a m | Throw e => Ok (m, Some e) | Exit n => Exit n | Undef u => Undef u | NoFuel => NoFuel end.
(** statements that write one element or call exit *)
Definition writing {T} (f : mat T -> outcome (mat T)) : member T := fun m =>
  match f m with Ok m' => Ok (m', None) | Throw e => Ok (m, Some e) | Exit n => Exit n | Undef u => Undef u | NoFuel => NoFuel end.
(** the end of a member function *)
Definition done {T} : member T := fun m => Ok (m, None).
(** a throw statement *)
Definition throwing {T} (e : exn) : member T := fun m => Ok (m, Some e).
(** [a; b] *)
Definition seq_ {T} (a b : member T) : member T := fun m =>
  r <- a m ;; match snd r with None => b (fst r) | Some e => Ok r end.
(** for (i = lo; i <= hi; i++) and for (i = hi; i >= lo; i--) *)
Fixpoint times_up {T} (n : nat) (i : Z) (body : Z -> member T) : member T :=
  match n with O => done | S n => seq_ (body i) (times_up n (i + 1) body) end.
(** the descending loop *)
Fixpoint times_dn {T} (n : nat) (i : Z) (body : Z -> member T) : member T :=
  match n with O => done | S n => seq_ (body i) (times_dn n (i - 1) body) end.
(** the ascending loop with its bounds *)
Definition each_up {T} (lo hi : Z) := @times_up T (Z.to_nat (hi - lo + 1)) lo.
(** the descending loop with its bounds *)
Definition each_down {T} (hi lo : Z) := @times_dn T (Z.to_nat (hi - lo + 1)) hi.

Section Ops.
Context {T : Type} (zero : T).

(** matrix.cpp:443-456 set_row *)
Definition set_row_on (row : list T) (r : Z) : member T :=
  reading (fun m => Ok (cols m)) (fun c =>
  if negb (c =? Z.of_nat (length row)) then throwing InvalidArgument else
  each_up 1 c (fun j => reading (fun m => Ok (rows m)) (fun n =>
    if r <=? n then reading (fun _ => vat row (j - 1)) (fun v => writing (store v r j 1)) else writing (store zero r j 1)))).
(** matrix.cpp:458-470 set_col *)
Definition set_col_on (col : list T) (c : Z) : member T :=
  reading (fun m => Ok (cols m)) (fun n =>
  if negb (n =? Z.of_nat (length col)) then throwing InvalidArgument else
  reading (fun m => Ok (rows m)) (fun R => each_up 1 R (fun i => reading (fun m => Ok (cols m)) (fun n =>
    if c <=? n then reading (fun _ => vat col (i - 1)) (fun v => writing (store v i c 1)) else writing (store zero i c 1))))).
(** matrix.cpp:771-778 *)
Definition swap_row_on (r_from r_to : Z) : member T :=
  if r_from =? r_to then done else
  reading (fun m => get_row m r_from) (fun row_f => reading (fun m => get_row m r_to) (fun row_t =>
  seq_ (set_row_on row_f r_to) (set_row_on row_t r_from))).
(** matrix.cpp:780-787 *)
Definition swap_col_on (c_from c_to : Z) : member T :=
  if c_from =? c_to then done else
  reading (fun m => get_col m c_from) (fun col_f => reading (fun m => get_col m c_to) (fun col_t =>
  seq_ (set_col_on col_f c_to) (set_col_on col_t c_from))).
(** matrix.cpp:789-811 *)
Definition move_row_on (r_from r_to : Z) : member T :=
  if r_from =? r_to then done else
  reading (fun m => get_row m r_from) (fun row =>
  seq_ (if r_from <? r_to
        then each_up r_from (r_to - 1) (fun r => reading (fun m => Ok (cols m)) (fun n => each_up 1 n (fun c =>
               reading (fun m => get_elem2 m (r + 1) c) (fun v => writing (set_elem2 v r c)))))
        else each_down r_from (r_to + 1) (fun r => reading (fun m => Ok (cols m)) (fun n => each_up 1 n (fun c =>
               reading (fun m => get_elem2 m (r - 1) c) (fun v => writing (set_elem2 v r c))))))
       (set_row_on row r_to)).
(** matrix.cpp:813-835 *)
Definition move_col_on (c_from c_to : Z) : member T :=
  if c_from =? c_to then done else
  reading (fun m => get_col m c_from) (fun col =>
  seq_ (if c_from <? c_to
        then each_up c_from (c_to - 1) (fun c => reading (fun m => Ok (rows m)) (fun n => each_up 1 n (fun r =>
               reading (fun m => get_elem2 m r (c + 1)) (fun v => writing (set_elem2 v r c)))))
        else each_down c_from (c_to + 1) (fun c => reading (fun m => Ok (rows m)) (fun n => each_up 1 n (fun r =>
               reading (fun m => get_elem2 m r (c - 1)) (fun v => writing (set_elem2 v r c))))))
       (set_col_on col c_to)).
End Ops.

(** the member functions that can throw *)
Inductive call (T : Type) := SetRow (row : list T) (r : Z) | SetCol (col : list T) (c : Z)
  | SwapRow (a b : Z) | SwapCol (a b : Z) | MoveRow (a b : Z) | MoveCol (a b : Z).
Arguments SetRow {T}. Arguments SetCol {T}. Arguments SwapRow {T}. Arguments SwapCol {T}. Arguments MoveRow {T}. Arguments MoveCol {T}.
(** dispatch to the member functions above *)
Definition run_call {T} (zero : T) (o : call T) : member T :=
  match o with
  | SetRow v r => set_row_on zero v r | SetCol v c => set_col_on zero v c | SwapRow a b => swap_row_on zero a b
  | SwapCol a b => swap_col_on zero a b | MoveRow a b => move_row_on zero a b | MoveCol a b => move_col_on zero a b end.
