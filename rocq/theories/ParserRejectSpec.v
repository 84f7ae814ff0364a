(** * Specification vocabulary for rejected command lines *)
From Verif Require Export ParserSpec OptionSpec.
Open Scope Z_scope.

Section Spec.
Context {E : env}.
Implicit Types (P : parser E).

(** the value [w] given to the flag [f] is refused with the exception [e]: it is not
    a number, or the argument object of the flag does not accept it *)
Definition refused P (f w : str) (e : exn) : Prop :=
  ~ admissible P f w /\ exists k, has_kind P f k /\
  match k with
  | KStr | KFile => e = InvalidArgument
  | KInt => stoi w = Throw e \/ ((exists v, stoi w = Ok v) /\ e = InvalidArgument)
  | KDouble => e_stod E w = Throw e \/ ((exists v, e_stod E w = Ok v) /\ e = InvalidArgument)
  | KSwitch => False
  end.
(** The parser has dealt with the items [l]; the rest of the line is [rest], and
    this is why it is rejected. *)
Inductive stuck P (l : list item) : list str -> exn -> Prop :=
| stuck_file f : required P f -> ~ found P f -> (forall w, In (f, w) (given l) -> file_exists E w = false) -> stuck P l [] RuntimeError
| stuck_unknown x r : ~ informational x -> (forall f k, stands_for P x f -> ~ has_kind P f k) -> stuck P l (x :: r) InvalidArgument
| stuck_missing x f k : ~ informational x -> stands_for P x f -> has_kind P f k -> k <> KSwitch -> stuck P l [x] RuntimeError
| stuck_value x f w r e : ~ informational x -> stands_for P x f -> refused P f w e -> stuck P l (x :: w :: r) e
| stuck_switch x f w r : ~ informational x -> stands_for P x f -> has_kind P f KSwitch -> ~ a_flag P w -> stuck P l (x :: w :: r) InvalidArgument.
(** where a command line is divided: a switch at the end of the items [l] is followed by a flag *)
Definition ends_before P (l : list item) (rest : list str) : Prop :=
  forall y r x f t, rest = y :: r -> l = t ++ [ISw x f] -> a_flag P y.
(** the rest begins with the switch [f] and the word [w], which is no flag *)
Definition switch_word P (f w : str) (rest : list str) : Prop :=
  exists x r, rest = x :: w :: r /\ stands_for P x f /\ has_kind P f KSwitch.
(** the rest begins with the file flag [f] and the file name [w] *)
Definition file_word P (f w : str) (rest : list str) : Prop :=
  exists x r, rest = x :: w :: r /\ stands_for P x f /\ has_kind P f KFile.

(** the getters of [P'] return for [f] what the items [l] say; what they do not mention is as in [P] *)
Record reads_as P (l : list item) P' (f : str) : Prop := {
  ra_str : forall w, has_kind P f KStr \/ has_kind P f KFile -> last_value f l w -> getStr P' f = Ok w;
  ra_int : forall w v, has_kind P f KInt -> last_value f l w -> stoi w = Ok v -> getInt P' f = Ok v;
  ra_dbl : forall w v, has_kind P f KDouble -> last_value f l w -> e_stod E w = Ok v -> getDouble P' f = Ok v;
  ra_switch : has_kind P f KSwitch -> In f (switched l) -> getInt P' f = Ok 1;
  ra_same : not_given f l -> getStr P' f = getStr P f /\ getInt P' f = getInt P f /\ getDouble P' f = getDouble P f;
  ra_size : getSize_t P' f = getSize_t P f }.
(** a switch that was given the word [w] *)
Definition reads_word P' (f w : str) : Prop :=
  getStr P' f = Ok w /\ getInt P' f = Ok (if existsb (str_eqb w) [$"ON"; $"TRUE"; $"1"] then 1 else 0).
End Spec.
