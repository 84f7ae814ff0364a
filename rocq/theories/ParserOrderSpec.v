(** * Specification for C100: the order of the items of a command line *)
From Verif Require Export ParserSpec MainModel.
Open Scope Z_scope.

(** what a line says about the flag [f], in order: [Some w] for a value, [None] for a switch *)
Definition item_says (f : str) (i : item) : list (option str) :=
  match i with
  | IVal _ g w => if str_eqb g f then [Some w] else []
  | ISw _ g => if str_eqb g f then [None] else []
  | INote _ => []
  end.
Definition said (f : str) (l : list item) : list (option str) := concat (map (item_says f) l).
(** the lines say the same about every flag; they may differ in how the items of different flags are
    mixed, in the spelling of the flags and in the informational words *)
Definition same_said (l l' : list item) : Prop := forall f, said f l = said f l'.
Definition is_note (i : item) : bool := match i with INote _ => true | _ => false end.
(** the flag of an item *)
Definition flag_of (i : item) : list str := match i with IVal _ f _ => [f] | ISw _ f => [f] | INote _ => [] end.
(** no flag is given twice *)
Definition all_once (l : list item) : Prop := NoDup (concat (map flag_of l)).
