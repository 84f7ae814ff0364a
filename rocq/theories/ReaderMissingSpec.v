(** * Specification for C94: sections that do not occur in a file

    Written in terms of [occurs] (StrSpec.v), the marks of ReaderSpec.v and the
    accessors of the readers. *)
From Verif Require Export ReaderModel ReaderSpec.
Open Scope Z_scope.

(** nowhere in the text [t] is a section of kind [k] announced *)
Definition absent (k : kind) (t : str) : Prop := forall p, In p (marks k) -> ~ occurs p t.
(** what announces the coefficients of a pun file *)
Definition pun_mark (beta : bool) : str := $" 1 " ++ spin_name beta ++ $" MO ".
(** the section with the orbital energies *)
Definition energies_of (beta : bool) : kind := if beta then KBeta else KAlpha.

(** the accessors for sections of kind [k] answer the same *)
Definition same_answers (N : nums) (k : kind) (r r' : LogReader N) : Prop :=
  match k with
  | KPopulation => getBasisFuncCount N r' = getBasisFuncCount N r /\ getOrbitalInfo N r' = getOrbitalInfo N r
  | KCoordinates => getCoords N r' = getCoords N r
  | KAlpha => getOE N r' $"Alpha" = getOE N r $"Alpha" /\ getHOMOLevel N r' $"Alpha" = getHOMOLevel N r $"Alpha"
  | KBeta => getOE N r' $"Beta" = getOE N r $"Beta" /\ getHOMOLevel N r' $"Beta" = getHOMOLevel N r $"Beta"
  | KOverlap => getOverlapMatrix N r' = getOverlapMatrix N r
  end.
(** they say that there is no such section: by an exception, or by returning nothing *)
Definition says_missing (N : nums) (k : kind) (r : LogReader N) : Prop :=
  match k with
  | KPopulation => getBasisFuncCount N r = [] /\ getOrbitalInfo N r = []
  | KCoordinates => getCoords N r = []
  | KAlpha => getOE N r $"Alpha" = Throw OutOfRange /\ getHOMOLevel N r $"Alpha" = Throw OutOfRange
  | KBeta => getOE N r $"Beta" = Throw OutOfRange /\ getHOMOLevel N r $"Beta" = Throw OutOfRange
  | KOverlap => exists e, getOverlapMatrix N r = Throw e
  end.
