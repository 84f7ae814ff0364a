(** * Specification vocabulary for the help text *)
From Verif Require Export ParserSpec.
Open Scope Z_scope.

Definition newline : str := ["010"%char].
Definition blanks (n : Z) : str := repeat " "%char (Z.to_nat n).
(** the printed characters *)
Definition render1 (p : piece) : str := match p with Text s => s | Blanks n => blanks n | Endl => newline end.
Definition render (l : list piece) : str := concat (map render1 l).
(** one paragraph of the help text, for the flag [f] with abbreviation [a] and description [d]:
    the flag padded to [wf + 1] columns, the abbreviation padded to [wa + 1]
    columns, the words of the description *)
Definition paragraph (wf wa : Z) (it : str * (str * str)) (t : str) : Prop :=
  let '(f, (a, d)) := it in
  exists n1 n2 body, t = f ++ blanks n1 ++ a ++ blanks n2 ++ body ++ newline ++ newline /\
    1 <= n1 /\ Z.of_nat (length f) + n1 = wf + 1 /\ 1 <= n2 /\ Z.of_nat (length a) + n2 = wa + 1 /\ splitSt body = splitSt d.
(** the length of the longest of some strings *)
Definition longest (l : list str) (n : Z) : Prop :=
  (forall s, In s l -> Z.of_nat (length s) <= n) /\ ((l = [] /\ n = 0) \/ exists s, In s l /\ Z.of_nat (length s) = n).
(** the texts of all entries that are abbreviations (after trimming) *)
Definition abbreviations (fl : list (list str)) : list str := filter is_short (map trim (concat fl)).

(** dictionary order by character code: one string is a proper prefix of the other, or they differ first at a smaller character *)
Definition dictionary (f g : str) : Prop :=
  exists p r s, f = p ++ r /\ g = p ++ s /\
    match r, s with
    | [], _ :: _ => True
    | x :: _, y :: _ => code x < code y
    | _, _ => False
    end.
