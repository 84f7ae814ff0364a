(** * Property C61: the command line and the readers *)
From Verif Require Export CatnipProps.
From Verif Require Export ReaderFile.
From Verif Require Export StrSpec StrModel.
Open Scope Z_scope.

(** ** C61 *)
Definition last_component (path f : str) : Prop := exists dir, path = dir ++ f /\ is_dir dir /\ is_name f.
Lemma ext_of path f a b : last_component path f -> stripped f (a ++ $"." ++ b) -> ~ In "."%char a -> fileExt_ path = Ok ($"." ++ b).
Proof.
  intros (dir & -> & Hd & Hn) St Na. unfold fileExt_. rewrite lastString_ok by auto. cbn [bind]. unfold trimmed. rewrite (trim_stripped _ _ St).
  assert (Fd : find $"." (a ++ $"." ++ b) = Some (length a)).
  { apply (find_first_at _ _ a b). split; [auto|]. intros a' b' E0.
    destruct (Nat.le_gt_cases (length a) (length a')) as [L|L]; auto. exfalso. apply Na.
    assert (Q : nth_error (a ++ $"." ++ b) (length a') = Some "."%char) by (rewrite E0, nth_error_app2 by lia; rewrite Nat.sub_diag; reflexivity).
    rewrite nth_error_app1 in Q by lia. eapply nth_error_In; eauto. }
  rewrite Fd. apply substr1_rest. reflexivity.
Qed.

Lemma component_ends n ext f : (forall c, In c ext -> c <> "/"%char) -> ends_in n ext -> last_component n f -> (exists a, f = a ++ ext) \/ (exists b, ext = b ++ f /\ n = b ++ f).
Proof.
  intros Ne (t & E) (dir & E2 & Hd & Hn). rewrite E2 in E. clear E2.
  destruct (Nat.le_gt_cases (length ext) (length f)) as [L|L].
  - left. exists (skipn (length dir) t).
    assert (X : f = skipn (length dir) (t ++ ext)) by (rewrite <- E, skipn_app, skipn_all, Nat.sub_diag; reflexivity).
    assert (Lt : (length dir <= length t)%nat) by (apply (f_equal (@length ascii)) in E; rewrite !app_length in E; lia).
    rewrite skipn_app in X. replace (length dir - length t)%nat with 0%nat in X by lia. exact X.
  - right. assert (Lt : (length t < length dir)%nat) by (apply (f_equal (@length ascii)) in E; rewrite !app_length in E; lia).
    assert (X : ext = skipn (length t) (dir ++ f)) by (rewrite E, skipn_app, skipn_all, Nat.sub_diag; reflexivity).
    rewrite skipn_app in X. replace (length t - length dir)%nat with 0%nat in X by lia. cbn [skipn] in X.
    destruct Hd as [->|(d' & ->)]; [cbn [length] in Lt; lia|]. exfalso. apply (Ne "/"%char); [|auto]. rewrite X. apply in_or_app. left.
    rewrite skipn_app. apply in_or_app. right. rewrite app_length in Lt. cbn [length] in Lt. replace (length t - length d')%nat with 0%nat by lia. left; auto.
Qed.
Lemma first_char_split (c : ascii) s : In c s -> exists a b, s = a ++ [c] ++ b /\ ~ In c a.
Proof.
  induction s as [|x s IH]; intros I; [destruct I|]. destruct (ascii_dec x c) as [->|Ne]; [exists [], s; split; [reflexivity|intros []]|].
  destruct I as [->|I]; [congruence|]. destruct (IH I) as (a & b & -> & Na). exists (x :: a), b. split; [auto|]. intros [->|H]; [congruence|contradiction].
Qed.
Definition dot : ascii := "."%char.
(** the extension the readers see: from the first dot of the last component *)
Lemma reader_ext n a ext : ext = $".log" \/ ext = $".pun" -> last_component n (a ++ ext) ->
  (~ In dot a -> fileExt_ n = Ok ext) /\ (In dot a -> exists e, fileExt_ n = Ok e /\ e <> ext).
Proof.
  intros He Hl. destruct (ltrim_spec a) as (w & Ww & Ea & Ba).
  assert (Wd : ~ In dot w) by (intros I; specialize (Ww _ I); vm_compute in Ww; intuition discriminate).
  assert (Hx : exists e0 x, ext = $"." ++ e0 /\ ext = e0 \/ ext = x ++ $"g" \/ ext = x ++ $"n") by (destruct He as [->| ->]; [exists [], $".lo"; right; left; reflexivity|exists [], $".pu"; right; right; reflexivity]).
  assert (So : forall y, ends_solid (y ++ ext)).
  { intros y c t E. destruct He as [->| ->]; apply (f_equal (@rev ascii)) in E; rewrite !rev_app_distr in E; cbn [rev app list_ascii_of_string] in E; inversion E; subst; intros I; vm_compute in I; intuition discriminate. }
  assert (St : forall a', begins_solid (a' ++ ext) -> a = w ++ a' -> stripped (a ++ ext) (a' ++ ext)).
  { intros a' B Ea'. exists w, []. rewrite app_nil_r. split; [auto|]. split; [apply white_nil|]. split; [rewrite Ea', app_assoc; reflexivity|]. split; [auto|apply So]. }
  assert (Bs : begins_solid (ltrim a ++ ext)).
  { intros c t E. destruct (ltrim a) as [|x s] eqn:El; [|cbn [app] in E; inversion E; subst; eapply Ba; reflexivity].
    cbn [app] in E. destruct He as [->| ->]; inversion E; subst; intros I; vm_compute in I; intuition discriminate. }
  split; intros Hd.
  - assert (Na : ~ In dot (ltrim a)) by (intros I; apply Hd; rewrite Ea; apply in_or_app; auto).
    destruct He as [->| ->]; [exact (ext_of n _ (ltrim a) $"log" Hl (St _ Bs Ea) Na)|exact (ext_of n _ (ltrim a) $"pun" Hl (St _ Bs Ea) Na)].
  - assert (I : In dot (ltrim a)) by (rewrite Ea in Hd; apply in_app_or in Hd as [I|I]; [contradiction|auto]).
    destruct (first_char_split _ _ I) as (u & v & E & Nu). exists ([dot] ++ v ++ ext).
    split.
    + apply (ext_of n (a ++ ext) u (v ++ ext) Hl); [|exact Nu]. pose proof (St _ Bs Ea) as S1. rewrite E in S1. rewrite <- !app_assoc in S1. exact S1.
    + intros X. apply (f_equal (@length ascii)) in X. rewrite !app_length in X. cbn [length] in X. lia.
Qed.
Lemma log_new_iff N n : (exists r, LogReader_new N n = Ok r) <-> fileExt_ n = Ok $".log".
Proof.
  unfold LogReader_new. destruct (fileExt_ n) as [e|x|x|x|]; cbn [bind]; try (split; [intros (r & H); discriminate H|intros H; discriminate H]).
  destruct (str_eqb_spec e $".log") as [->|Ne]; cbn [negb]; [split; [auto|intros _; eexists; reflexivity]|].
  split; [intros (r & H); discriminate H|intros H; inversion H; congruence].
Qed.
Lemma log_new_throws N n e : fileExt_ n = Ok e -> e <> $".log" -> LogReader_new N n = Throw InvalidArgument.
Proof. intros E Ne. unfold LogReader_new. rewrite E. cbn [bind]. destruct (str_eqb_spec e $".log"); [congruence|reflexivity]. Qed.
Lemma pun_new_iff N n : (exists r, PunReader_new N n = Ok r) <-> fileExt_ n = Ok $".pun".
Proof.
  unfold PunReader_new. destruct (fileExt_ n) as [e|x|x|x|]; cbn [bind]; try (split; [intros (r & H); discriminate H|intros H; discriminate H]).
  destruct (str_eqb_spec e $".pun") as [->|Ne]; cbn [negb]; [split; [auto|intros _; eexists; reflexivity]|].
  split; [intros (r & H); discriminate H|intros H; inversion H; congruence].
Qed.
Lemma pun_new_throws N n e : fileExt_ n = Ok e -> e <> $".pun" -> PunReader_new N n = Throw InvalidArgument.
Proof. intros E Ne. unfold PunReader_new. rewrite E. cbn [bind]. destruct (str_eqb_spec e $".pun"); [congruence|reflexivity]. Qed.

(** full property: the readers accept every name that prepareParameters returns *)
(** proved: they do if the last component of the path has only one dot *)
Theorem C61_one_dot_partial : forall E (P : parser E) p N, prepareParameters P = Ok p ->
  forall own partner exts ext n a, In (own, partner, exts, ext, n) (files p) -> last_component n (a ++ ext) -> ~ In "."%char a ->
    (ext = $".log" -> exists r, LogReader_new N n = Ok r) /\ (ext = $".pun" -> exists r, PunReader_new N n = Ok r).
Proof.
  intros E P p N H own partner exts ext n a I Hl Na.
  assert (He : ext = $".log" \/ ext = $".pun") by (unfold files in I; cbn [In] in I; destruct I as [I|[I|[I|[I|[I|[I|[]]]]]]]; inversion I; auto).
  destruct (reader_ext n a ext He Hl) as [R _]. specialize (R Na). split; intros ->; [apply log_new_iff|apply pun_new_iff]; auto.
Qed.
Print Assumptions C61_one_dot_partial.
(** refuted: otherwise the reader throws; the command line layer has accepted the name *)
Theorem C61_more_dots_refuted : forall E (P : parser E) p N, prepareParameters P = Ok p ->
  forall own partner exts ext n a, In (own, partner, exts, ext, n) (files p) -> last_component n (a ++ ext) -> In "."%char a ->
    (ext = $".log" -> LogReader_new N n = Throw InvalidArgument) /\ (ext = $".pun" -> PunReader_new N n = Throw InvalidArgument).
Proof.
  intros E P p N H own partner exts ext n a I Hl Na.
  assert (He : ext = $".log" \/ ext = $".pun") by (unfold files in I; cbn [In] in I; destruct I as [I|[I|[I|[I|[I|[I|[]]]]]]]; inversion I; auto).
  destruct (reader_ext n a ext He Hl) as [_ R]. destruct (R Na) as (e & R1 & R2). split; intros ->; [eapply log_new_throws|eapply pun_new_throws]; eauto.
Qed.
Print Assumptions C61_more_dots_refuted.
(** every name has the form in question, unless the last component is the bare extension or less *)
Theorem C61_every_name : forall E (P : parser E) p, prepareParameters P = Ok p ->
  forall own partner exts ext n, In (own, partner, exts, ext, n) (files p) -> exists a, last_component n (a ++ ext).
Proof.
  intros E P p H own partner exts ext n I. pose proof (C58_suffixes _ _ _ H _ _ _ _ _ I) as Se.
  assert (He : ext = $".log" \/ ext = $".pun") by (unfold files in I; cbn [In] in I; destruct I as [I|[I|[I|[I|[I|[I|[]]]]]]]; inversion I; auto).
  destruct (path_parts n) as (d & f & E0 & Nf & Hd).
  assert (Hl : last_component n f) by (exists d; auto).
  assert (Ns : forall c, In c ext -> c <> "/"%char) by (intros c Ic; destruct He as [->| ->]; vm_compute in Ic; intuition congruence).
  destruct (component_ends n ext f Ns Se Hl) as [(a & ->)|(b & E1 & E2)]; [eauto|].
  exists []. cbn [app]. rewrite E1, <- E2. exists []. split; [auto|]. split; [left; auto|]. intros C. rewrite E2, <- E1 in C. apply Ns in C. congruence.
Qed.
Print Assumptions C61_every_name.
(** Each reader accepts exactly the names whose last component, without the blanks around it, has its only dot
    right before log or pun; every other name is refused with invalid_argument. *)
Theorem C61_readers : forall N n f t, last_component n f -> stripped f t ->
  ((exists a, t = a ++ $".log" /\ ~ In "."%char a) /\ (exists r, LogReader_new N n = Ok r) \/
   ~ (exists a, t = a ++ $".log" /\ ~ In "."%char a) /\ LogReader_new N n = Throw InvalidArgument) /\
  ((exists a, t = a ++ $".pun" /\ ~ In "."%char a) /\ (exists r, PunReader_new N n = Ok r) \/
   ~ (exists a, t = a ++ $".pun" /\ ~ In "."%char a) /\ PunReader_new N n = Throw InvalidArgument).
Proof.
  intros N n f t Hl St. destruct (in_dec ascii_dec "."%char t) as [I|I].
  - destruct (first_char_split _ _ I) as (a & b & -> & Na). pose proof (ext_of n f a b Hl St Na) as Fe. cbn [app] in *.
    assert (U : forall e, (exists a0, a ++ "."%char :: b = a0 ++ "."%char :: e /\ ~ In "."%char a0) <-> b = e).
    { clear - Na. intros e. split; [|intros ->; eauto]. intros (a0 & E & Na0).
      revert a0 E Na0. induction a as [|x a IH]; intros [|y a0] E Na0; cbn [app] in E.
      - injection E as ->. reflexivity.
      - injection E as <- _. destruct Na0. left; reflexivity.
      - injection E as -> _. destruct Na. left; reflexivity.
      - injection E as -> E. apply (IH (fun J => Na (or_intror J)) a0 E (fun J => Na0 (or_intror J))). }
    split; [destruct (list_eq_dec ascii_dec b $"log") as [->|Ne]|destruct (list_eq_dec ascii_dec b $"pun") as [->|Ne]].
    + left. split; [apply (U $"log"); reflexivity|apply log_new_iff, Fe].
    + right. split; [intros X; apply Ne, (U $"log"), X|]. apply (log_new_throws N n _ Fe). intros X. injection X as ->. apply Ne. reflexivity.
    + left. split; [apply (U $"pun"); reflexivity|apply pun_new_iff, Fe].
    + right. split; [intros X; apply Ne, (U $"pun"), X|]. apply (pun_new_throws N n _ Fe). intros X. injection X as ->. apply Ne. reflexivity.
  - assert (Fe : fileExt_ n = Throw InvalidArgument).
    { destruct Hl as (dir & -> & Hd & Hn). unfold fileExt_. rewrite lastString_ok by auto. cbn [bind]. unfold trimmed. rewrite (trim_stripped _ _ St).
      assert (Fd : find $"." t = None) by (apply StrFacts.find_none; intros (x & y & E); apply I; rewrite E; apply in_or_app; right; left; reflexivity).
      rewrite Fd. reflexivity. }
    split; right; (split; [intros (a & -> & _); apply I, in_or_app; right; left; reflexivity|]).
    + unfold LogReader_new. rewrite Fe. reflexivity.
    + unfold PunReader_new. rewrite Fe. reflexivity.
Qed.
Print Assumptions C61_readers.
Definition disk3 : env := disk [$"dimer.v1.pun"; $"dimer.v1.log"; $"m1.pun"; $"m1.log"; $"m2.pun"; $"m2.log"].
Definition line6 : list ParserSpec.item := [IVal $"-p_P" $"--pun_P" $"dimer.v1.pun"; IVal $"-p_1" $"--pun_1" $"m1.pun"; IVal $"-p_2" $"--pun_2" $"m2.pun"].
(** a witness of the refutation: "dimer.v1.log" is accepted on the command line and rejected by the reader *)
Theorem C61_witness_refuted : exists P p, valid (catnip disk3) line6 /\ parse ($"calc_J" :: words line6) (catnip disk3) = Ok P /\ prepareParameters P = Ok p /\
  (exists own partner exts, In (own, partner, exts, $".log", $"dimer.v1.log") (files p)) /\ last_component $"dimer.v1.log" ($"dimer.v1" ++ $".log") /\ In "."%char $"dimer.v1" /\
  (forall N, LogReader_new N $"dimer.v1.log" = Throw InvalidArgument) /\
  last_component (pun1 p) ($"m1" ++ $".pun") /\ ~ In "."%char $"m1" /\ forall N, exists r, PunReader_new N (pun1 p) = Ok r.
Proof.
  assert (R : result disk3 line6 = Ok ([$"m1.log"; $"m2.log"; $"dimer.v1.log"; $"m1.pun"; $"m2.pun"; $"dimer.v1.pun"],
     ([$"Alpha"; $"Alpha"; $"Alpha"; []; $"HOMO"; $"HOMO"], [0; 0; 0], Some false, false))) by (vm_compute; reflexivity).
  apply result_inv in R as (P & p & H1 & H2 & H3). exists P, p. split; [apply validb_ok; [apply catnip_wf|vm_compute; reflexivity]|]. split; [auto|]. split; [auto|].
  assert (Nm : names p = [$"m1.log"; $"m2.log"; $"dimer.v1.log"; $"m1.pun"; $"m2.pun"; $"dimer.v1.pun"]) by exact (eq_sym (f_equal fst H3)).
  assert (L3 : logP p = $"dimer.v1.log") by exact (f_equal (fun l => nth 2 l []) Nm).
  assert (L4 : pun1 p = $"m1.pun") by exact (f_equal (fun l => nth 3 l []) Nm).
  split; [exists $"--log_P", $"--pun_P", log_exts; rewrite <- L3; unfold files; cbn [In]; tauto|].
  split; [exists []; split; [reflexivity|split; [left; reflexivity|intros C; vm_compute in C; intuition discriminate]]|]. split; [vm_compute; tauto|].
  split; [intros N; reflexivity|]. rewrite L4.
  split; [exists []; split; [reflexivity|split; [left; reflexivity|intros C; vm_compute in C; intuition discriminate]]|].
  split; [intros C; vm_compute in C; intuition discriminate|]. intros N. eexists. reflexivity.
Qed.
Print Assumptions C61_witness_refuted.
