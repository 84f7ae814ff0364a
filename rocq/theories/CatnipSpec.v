(** * Specification vocabulary for CATNIP's own command line *)
From Verif Require Export ParserSpec.
Open Scope Z_scope.

Definition ends_in (s ext : str) : Prop := exists t, s = t ++ ext.

(** the data of a parameter object: the six file names, and the rest *)
Definition names (p : params) : list str := [log1 p; log2 p; logP p; pun1 p; pun2 p; punP p].
Definition settings (p : params) : list str * list Z * option bool * bool :=
  ([spinP p; spin1 p; spin2 p; orb_typeP p; orb_type1 p; orb_type2 p], [orb_numP p; orb_num1 p; orb_num2 p], citation p, counterPoise p).

(** the flag [f] is given at most once (or always with the same value) *)
Definition once (f : str) (l : list item) : Prop := forall w w', In (f, w) (given l) -> In (f, w') (given l) -> w = w'.
(** [q] is [p] with its extension replaced by [e] *)
Definition sister_of (p e q : str) : Prop := exists dir core ext, path_is p dir core ext /\ q = dir ++ core ++ e.
(** the sister with the last extension of the list for which there is one *)
Definition best_sister (E : env) (p : str) (exts : list str) (q : str) : Prop :=
  exists a e b, exts = a ++ e :: b /\ sister_of p e q /\ file_exists E q = true /\
    forall e' q', In e' b -> sister_of p e' q' -> file_exists E q' = false.
(** the file used for the flag [own]: the existing file given with it, otherwise
    the sister of the file given with the partner flag *)
Definition resolves (E : env) (l : list item) (own partner : str) (exts : list str) (n : str) : Prop :=
  (last_value own l n /\ file_exists E n = true) \/
  ((forall w, last_value own l w -> file_exists E w = false) /\ exists w, last_value partner l w /\ best_sister E w exts n).
(** the same for every line: [ws] are the words of [s] *)
Definition words_are (s : str) (ws : list str) : Prop := exists g0 l, s = weave g0 l /\ woven g0 l /\ ws = map fst l.
(** the name taken for the sister of [p]: all the sisters are written one after the other and cut into words;
    if the [i]-th sister is the last one that exists, the [i]-th word is taken *)
Definition named (E : env) (p : str) (exts : list str) (n : str) : Prop :=
  exists qs wss i q, Forall2 (sister_of p) exts qs /\ Forall2 words_are qs wss /\
    nth_error qs i = Some q /\ file_exists E q = true /\
    (forall j q', (i < j)%nat -> nth_error qs j = Some q' -> file_exists E q' = false) /\
    nth_error (concat wss) i = Some n.
(** the name used for the flag [own]: the last one given with it if any file given with it exists,
    otherwise the name taken for the sister of the last file given with the partner flag *)
Definition uses (E : env) (l : list item) (own partner : str) (exts : list str) (n : str) : Prop :=
  (last_value own l n /\ exists w, In (own, w) (given l) /\ file_exists E w = true) \/
  ((forall w, In (own, w) (given l) -> file_exists E w = false) /\ exists w, last_value partner l w /\ named E w exts n).
Definition log_exts : list str := [$".log"].
Definition pun_exts : list str := [$".orb"; $".7"; $".pun"].
Definition file_flags : list str := [$"--pun_P"; $"--pun_1"; $"--pun_2"; $"--log_P"; $"--log_1"; $"--log_2"].
Definition pun_flags : list str := [$"--pun_P"; $"--pun_1"; $"--pun_2"].

(** the value of a flag with default [d] *)
Definition value_or (f d : str) (l : list item) (v : str) : Prop :=
  last_value f l v \/ ((forall w, ~ In (f, w) (given l)) /\ v = d).
Definition number_or (f : str) (d : Z) (l : list item) (v : Z) : Prop :=
  (exists w, last_value f l w /\ stoi w = Ok v) \/ ((forall w, ~ In (f, w) (given l)) /\ v = d).
Definition consistent (ty : str) (n : Z) : Prop := (ty = $"HOMO" /\ n <= 0) \/ (ty = $"LUMO" /\ 0 <= n).
Definition is_spin (s : str) : Prop := s = $"Alpha" \/ s = $"Beta".
(** (flag, partner flag, extensions tried for the sister, required suffix, name used) *)
Definition files (p : params) : list (str * str * list str * str * str) :=
  [($"--pun_P", $"--log_P", pun_exts, $".pun", punP p); ($"--pun_1", $"--log_1", pun_exts, $".pun", pun1 p); ($"--pun_2", $"--log_2", pun_exts, $".pun", pun2 p);
   ($"--log_P", $"--pun_P", log_exts, $".log", logP p); ($"--log_1", $"--pun_1", log_exts, $".log", log1 p); ($"--log_2", $"--pun_2", log_exts, $".log", log2 p)].
