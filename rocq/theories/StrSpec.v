(** * Specification vocabulary for strings *)
From Verif Require Export StrBase.
Open Scope Z_scope.

(** white space in the "C" locale *)
Definition spaces : str := $" " ++ ["009"; "010"; "011"; "012"; "013"]%char.
Definition white (s : str) : Prop := forall c, In c s -> In c spaces.
Definition no_white (s : str) : Prop := forall c, In c s -> ~ In c spaces.

(** [s] neither begins nor ends with white space *)
Definition begins_solid (s : str) : Prop := forall c t, s = c :: t -> ~ In c spaces.
Definition ends_solid (s : str) : Prop := forall c t, s = t ++ [c] -> ~ In c spaces.

(** a word *)
Definition word (w : str) : Prop := w <> [] /\ no_white w.

(** gap, then words each followed by a gap *)
Fixpoint weave (g0 : str) (l : list (str * str)) : str :=
  match l with [] => g0 | (w, g) :: t => g0 ++ w ++ weave g t end.
(** gaps are white, words are words, and two words never touch *)
Fixpoint woven (g0 : str) (l : list (str * str)) : Prop :=
  white g0 /\
  match l with
  | [] => True
  | (w, g) :: t => word w /\ (t <> [] -> g <> []) /\ woven g t
  end.

(** [a] is the text before the first occurrence of [occ] in [s], [b] the text after it *)
Definition first_at (occ s a b : str) : Prop :=
  s = a ++ occ ++ b /\ forall a' b', s = a' ++ occ ++ b' -> (length a <= length a')%nat.
Definition last_at (occ s a b : str) : Prop :=
  s = a ++ occ ++ b /\ forall a' b', s = a' ++ occ ++ b' -> (length a' <= length a)%nat.
Definition occurs (occ s : str) : Prop := exists a b, s = a ++ occ ++ b.

Definition letters : str := $"ABCDEFGHIJKLMNOPQRSTUVWXYZabcdefghijklmnopqrstuvwxyz".

(** the characters before the first NUL *)
Fixpoint c_string (b : str) : str :=
  match b with [] => [] | c :: t => if Ascii.eqb c "000"%char then [] else c :: c_string t end.

(** a length a std::string can have (max_size of libstdc++) *)
Definition storable (s : str) : Prop := Z.of_nat (length s) < 9223372036854775808.

(** everything but the blanks *)
Definition without_blanks (s : str) : str := filter (fun c => negb (Ascii.eqb c " "%char)) s.
