(** * Match vectors with repeated entries: when does unscrambling end? *)
From Verif Require Export QcSpec.
Open Scope Z_scope.

(** place [i] is to receive the block of the atom [k] *)
Definition assigned (m : list Z) (i k : Z) : Prop := 1 <= i /\ nth_error m (Z.to_nat (i - 1)) = Some k.
(** following the entries from place to place, one step or more *)
Inductive leads (m : list Z) : Z -> Z -> Prop :=
| leads_one i k : assigned m i k -> leads m i k
| leads_more i k x : assigned m i k -> leads m k x -> leads m i x.
(** one match vector: a cycle, whose largest place is [c], can be entered from a place [j] beyond it *)
Definition trapped (m : list Z) : Prop :=
  exists c j, leads m c c /\ (forall v, leads m c v -> v <= c) /\ c < j /\ leads m j c.
(** two match vectors: a cycle among the places of monomer B, whose largest place is [c],
    can be entered from a place beyond it or from a place of monomer A *)
Definition trapped2 (mA mB : list Z) : Prop :=
  exists c j, leads (mA ++ mB) c c /\ (forall v, leads (mA ++ mB) c v -> Z.of_nat (length mA) < v <= c) /\
    (c < j \/ j <= Z.of_nat (length mA)) /\ leads (mA ++ mB) j c.
