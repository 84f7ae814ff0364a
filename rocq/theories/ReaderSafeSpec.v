(** * Specification for C96: reading a file of any content *)
From Verif Require Export ReaderModel ReaderSpec.
Open Scope Z_scope.

(** [stod] returns a number or throws *)
Definition sound_stod (N : nums) : Prop := forall s u, n_stod N s <> Undef u.
(** no undefined behaviour *)
Definition defined {A} (o : outcome A) : Prop := forall u, o <> Undef u.
(** no undefined behaviour but an [int] that overflows: every access to memory is
    inside an object that is alive and initialised *)
Definition memory_safe {A} (o : outcome A) : Prop := forall u, o = Undef u -> u = SignedOverflow.
(** the number of line ends in a text *)
Definition line_ends (t : str) : Z := Z.of_nat (count_occ Ascii.ascii_dec t nl).
