(** * Specification vocabulary for arguments and properties *)
From Verif Require Export StrSpec.
Open Scope Z_scope.

(** the value given last for key [k] in a list of (key, value) settings, or [d] *)
Fixpoint last_given {V} (k : str) (d : V) (l : list (str * V)) : V :=
  match l with
  | [] => d
  | (k', v) :: t => last_given k (if str_dec k k' then v else d) t
  end.

(** a path is directory (empty or ending in a slash) ++ file name (no slash) *)
Definition is_dir (d : str) : Prop := d = [] \/ exists d', d = d' ++ ["/"%char].
Definition is_name (f : str) : Prop := ~ In "/"%char f.
(** a file name is core ++ extension; the extension begins at the last dot, or
    is empty when there is no dot *)
Definition splits_ext (f core ext : str) : Prop :=
  f = core ++ ext /\
  ((ext = [] /\ ~ In "."%char core) \/ exists e, ext = "."%char :: e /\ ~ In "."%char e).
Definition path_is (p dir core ext : str) : Prop :=
  exists f, p = dir ++ f /\ is_dir dir /\ is_name f /\ splits_ext f core ext.

(** an extension rule matches: a wild card (beginning with a star) or the very extension *)
Definition matches (rule ext : str) : Prop := (exists t, rule = "*"%char :: t) \/ rule = ext.

(** a well formed extension rule *)
Definition ext_rule (e : str) : Prop :=
  e = [] \/ (exists t, e = "*"%char :: t) \/ exists t, e = "."%char :: t /\ ~ In "."%char t.
