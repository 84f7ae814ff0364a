(** * C89: exactly which options can be set, with which kind of value *)
From Verif Require Import StrFacts ArgsFacts ParserWf ParserStateWf OptionFacts OptionHistory.
From Verif Require Export OptionSpec.
Open Scope Z_scope.

(** the kinds of values each option takes *)
Definition int_options : list (str * str * str) :=
  [($"ARGUMENT_INT", $"PROPERTY_INT", $"MIN"); ($"ARGUMENT_INT", $"PROPERTY_INT", $"MAX");
   ($"ARGUMENT_FILE", $"PROPERTY_FILE_EXIST", $"FILE_MUST_EXIST"); ($"ARGUMENT_FILE", $"PROPERTY_FILE_EXIST", $"FILE_DOES_EXIST")].
Definition double_options : list (str * str * str) :=
  [($"ARGUMENT_DOUBLE", $"PROPERTY_DOUBLE", $"MIN"); ($"ARGUMENT_DOUBLE", $"PROPERTY_DOUBLE", $"MAX")].
Definition switch_options : list (str * str * str) := [($"ARGUMENT_SWITCH", $"PROPERTY_SWITCH", $"DEFAULT")].
Definition set_options : list (str * str * str) :=
  [($"ARGUMENT_FILE", $"PROPERTY_FILE_EXT", $"ALLOWED_FILE_EXT");
   ($"ARGUMENT_STRING", $"PROPERTY_STRING_CHOICE", $"STRING_CHOICE_ENFORCED"); ($"ARGUMENT_STRING", $"PROPERTY_STRING_CHOICE", $"STRING_CHOICES")].
Definition list_options : list (str * str * str) :=
  map (fun o => ($"ARGUMENT_FILE", $"PROPERTY_SISTER_FILE", o))
    [$"ALLOWED_SISTER_FILE_EXT"; $"SISTER_FILE_NAME"; $"SISTER_FILE_PATH"; $"SISTER_FILE_PATH_NAME"; $"SISTER_FILE_EXISTS"].
Definition takes {E : env} (n pr o : str) (s : setting E) : Prop :=
  match s with
  | SInt v => In (n, pr, o) int_options \/ (In (n, pr, o) switch_options /\ (v = 0 \/ v = 1))
  | SDbl _ => In (n, pr, o) double_options
  | SStr v => In (n, pr, o) set_options \/ In (n, pr, o) list_options \/
              (In (n, pr, o) switch_options /\ (v = $"ON" \/ v = $"OFF"))
  | SSet _ => In (n, pr, o) set_options
  | SVec _ => In (n, pr, o) list_options
  end.

Section Exact.
Context {E : env}.
Implicit Types P : parser E.
Lemma set_in_none {T} pr o (v : T) ps : map p_kind ps = [] -> set_in pr o v ps = Ok (false, ps).
Proof. destruct ps; [reflexivity|discriminate]. Qed.
Lemma set_in_one {T} pr o (v : T) ps q : map p_kind ps = [q] -> Forall full_prop ps ->
  (pr <> prop_name q /\ set_in pr o v ps = Ok (false, ps)) \/
  (pr = prop_name q /\ In o (prop_opts q) /\ exists ps', set_in pr o v ps = Ok (true, ps')) \/
  (pr = prop_name q /\ ~ In o (prop_opts q) /\ set_in pr o v ps = Throw InvalidArgument).
Proof.
  intros M F. destruct ps as [|p [|? ?]]; try discriminate. cbn [map] in M. assert (K : p_kind p = q) by congruence. subst q. clear M.
  apply Forall_inv in F. cbn [set_in]. destruct (str_eqb_spec pr (prop_name (p_kind p))) as [Q|N].
  - right. unfold setPropOption, propOptionValid_. destruct F as [F1 F2]. destruct (m_has o (p_options p)) eqn:Hh.
    + left. split; [exact Q|]. split; [|cbn [bind]; eauto]. unfold m_has in Hh. destruct (m_find o (p_options p)) as [w|] eqn:G; [|discriminate]. apply (F2 o w). unfold getPropOption. now rewrite G.
    + right. split; [exact Q|]. split; [|reflexivity]. intros I. destruct (F1 o I) as (w & G). unfold m_has in Hh. unfold getPropOption in G.
      destruct (m_find o (p_options p)); discriminate.
  - left. split; auto.
Qed.

Definition has (K : list pkind) (pr o : str) : Prop := exists q, In q K /\ pr = prop_name q /\ In o (prop_opts q).
Definition verdict {A} (x : outcome A) (b : Prop) : Prop := (b /\ exists a, x = Ok a) \/ (~ b /\ x = Throw InvalidArgument).
Lemma verdict_iff {A} (x : outcome A) b b' : (b <-> b') -> verdict x b -> verdict x b'.
Proof. intros I [[B H]|[B H]]; [left|right]; tauto. Qed.
Lemma verdict_bind {A B} (x : outcome A) (f : A -> B) b : verdict x b -> verdict (v <- x ;; Ok (f v)) b.
Proof. intros [[H (v & ->)]|[H ->]]; [left; split; [auto|cbn [bind]; eauto]|right; auto]. Qed.
Lemma verdict_no {A} (b : Prop) : ~ b -> verdict (@Throw A InvalidArgument) b.
Proof. intros N. right. auto. Qed.
Lemma has_nil pr o : ~ has [] pr o. Proof. intros (q & [] & _). Qed.
Lemma has_one q pr o : has [q] pr o <-> pr = prop_name q /\ In o (prop_opts q).
Proof. split; [intros (q' & [<-|[]] & H)|intros H; exists q; split; [left; reflexivity|]]; auto. Qed.

Lemma one_verdict {T A} pr o (v : T) ps K (g : list (prop T) -> A) : (K = [] \/ exists q, K = [q]) -> map p_kind ps = K -> Forall full_prop ps ->
  verdict (r <- set_in pr o v ps ;; if fst r : bool then Ok (g (snd r)) else Throw InvalidArgument) (has K pr o).
Proof.
  intros [->|(q & ->)] M F.
  - rewrite (set_in_none _ _ _ _ M). apply verdict_no, has_nil.
  - apply (verdict_iff _ (pr = prop_name q /\ In o (prop_opts q))); [symmetry; apply has_one|].
    destruct (set_in_one pr o v ps q M F) as [[N ->]|[(Q & I & ps' & ->)|(Q & I & ->)]]; cbn [bind fst snd].
    + apply verdict_no. tauto.
    + left. eauto.
    + apply verdict_no. tauto.
Qed.
Ltac few := match goal with |- ?l = [] \/ _ => destruct l as [|? [|? ?]] end.
Lemma int_verdict pr o v a : shape a -> verdict (setArgPropertyOpt_int E pr o v a) (has (ki (a_kind E a)) pr o).
Proof.
  intros [S _ _ _ _ _]. unfold setArgPropertyOpt_int. apply (one_verdict pr o v (a_int E a) _ (fun l => mkArg E (a_kind E a) l (a_dbl E a) (a_size E a) (a_str E a) (a_set E a) (a_vec E a))); [|apply S..].
  destruct (a_kind E a); cbn; eauto.
Qed.
Lemma dbl_verdict pr o v a : shape a -> verdict (setArgPropertyOpt_dbl E pr o v a) (has (kd (a_kind E a)) pr o).
Proof.
  intros [_ S _ _ _ _]. unfold setArgPropertyOpt_dbl. apply (one_verdict pr o v (a_dbl E a) _ (fun l => mkArg E (a_kind E a) (a_int E a) l (a_size E a) (a_str E a) (a_set E a) (a_vec E a))); [|apply S..].
  destruct (a_kind E a); cbn; eauto.
Qed.
Lemma set_verdict pr o v a : shape a -> verdict (setArgPropertyOpt_set E pr o v a) (has (kset (a_kind E a)) pr o).
Proof.
  intros [_ _ _ _ S _]. unfold setArgPropertyOpt_set. apply (one_verdict pr o v (a_set E a) _ (fun l => mkArg E (a_kind E a) (a_int E a) (a_dbl E a) (a_size E a) (a_str E a) l (a_vec E a))); [|apply S..].
  destruct (a_kind E a); cbn; eauto.
Qed.
Lemma vec_verdict pr o v a : shape a -> verdict (setArgPropertyOpt_vec E pr o v a) (has (ParserWf.kv (a_kind E a)) pr o).
Proof.
  intros [_ _ _ _ _ S]. unfold setArgPropertyOpt_vec. apply (one_verdict pr o v (a_vec E a) _ (fun l => mkArg E (a_kind E a) (a_int E a) (a_dbl E a) (a_size E a) (a_str E a) (a_set E a) l)); [|apply S..].
  destruct (a_kind E a); cbn; eauto.
Qed.
Lemma switch_verdict pr o v a : shape a -> a_kind E a = ASwitch -> verdict (setArgPropertyOpt_str E pr o v a) (has [PSwitch] pr o).
Proof.
  intros [_ _ _ S1 S2 S3] K. rewrite K in S1, S2, S3. cbn [ks kset ParserWf.kv] in S1, S2, S3. unfold setArgPropertyOpt_str.
  rewrite (set_in_none pr o [v] _ (proj1 S3)), (set_in_none pr o [v] _ (proj1 S2)). cbn [bind fst snd].
  apply (verdict_iff _ (pr = prop_name PSwitch /\ In o (prop_opts PSwitch))); [symmetry; apply has_one|].
  destruct (set_in_one pr o v _ _ (proj1 S1) (proj2 S1)) as [[N ->]|[(Q & I & ps' & ->)|(Q & I & ->)]]; cbn [bind fst snd orb].
  - apply verdict_no. tauto.
  - left. eauto.
  - apply verdict_no. tauto.
Qed.
Lemma file_verdict pr o v a : shape a -> a_kind E a = AFile -> verdict (setArgPropertyOpt_str E pr o v a) (has [PFileExt; PSister] pr o).
Proof.
  intros [_ _ _ S1 S2 S3] K. rewrite K in S1, S2, S3. cbn [ks kset ParserWf.kv] in S1, S2, S3. unfold setArgPropertyOpt_str.
  rewrite (set_in_none pr o v _ (proj1 S1)). cbn [bind fst snd orb].
  apply (verdict_iff _ ((pr = prop_name PFileExt /\ In o (prop_opts PFileExt)) \/ (pr = prop_name PSister /\ In o (prop_opts PSister)))).
  { split; [intros [[Q I]|[Q I]]; [exists PFileExt|exists PSister]; (split; [cbn [In]; auto|auto])|intros (q & [<-|[<-|[]]] & H); auto]. }
  assert (D : prop_name PFileExt <> prop_name PSister) by (vm_compute; discriminate).
  destruct (set_in_one pr o [v] _ _ (proj1 S3) (proj2 S3)) as [[N ->]|[(Q & I & ps' & ->)|(Q & I & ->)]]; cbn [bind fst snd orb].
  - destruct (set_in_one pr o [v] _ _ (proj1 S2) (proj2 S2)) as [[N' ->]|[(Q & I & ps' & ->)|(Q & I & ->)]]; cbn [bind fst snd orb].
    + apply verdict_no. tauto.
    + left. eauto.
    + apply verdict_no. intros [[? ?]|[? ?]]; contradiction.
  - destruct (set_in_one pr o [v] _ _ (proj1 S2) (proj2 S2)) as [[N' ->]|[(Q' & _)|(Q' & _)]]; [|rewrite Q in Q'; congruence..].
    cbn [bind fst snd orb]. left. eauto.
  - apply verdict_no. intros [[? ?]|[? ?]]; [congruence|contradiction].
Qed.
Lemma upd_verdict k f g m P b : margs k P = m -> verdict (g (the_arg k f P)) b -> verdict (update_arg (fresh_arg k) f g m) b.
Proof. intros <- V. unfold update_arg. apply (verdict_bind _ (fun a' => m_set f a' (margs k P))). exact V. Qed.

Lemma table K (n pr o : str) l : l = concat (map (fun p => map (fun o => (n, prop_name p, o)) (prop_opts p)) K) ->
  (In (n, pr, o) l <-> has K pr o).
Proof.
  intros ->. rewrite in_concat. split.
  - intros (x & Ix & I). apply in_map_iff in Ix as (q & <- & Iq). apply in_map_iff in I as (o' & Q & Io).
    assert (prop_name q = pr) by congruence. assert (o' = o) by congruence. subst. exists q. auto.
  - intros (q & Iq & -> & Io). eexists. split; [apply (in_map _ _ _ Iq)|]. cbv beta. apply (in_map (fun o0 => (n, prop_name q, o0))). exact Io.
Qed.
Definition rows_of (n : str) (l : list (str * str * str)) := filter (fun x => str_eqb (fst (fst x)) n) l.
Lemma rows_in (n pr o : str) l : In (n, pr, o) l <-> In (n, pr, o) (rows_of n l).
Proof. unfold rows_of. rewrite filter_In. cbn [fst]. rewrite str_eqb_refl. tauto. Qed.
End Exact.

(** every call of setFlagArgOpt either sets an option of the table with a value of its kind, or is rejected *)
Theorem C89_accepted :
  forall (E : env) (P : parser E) f n pr o s,
  built E P ->
  (takes n pr o s -> exists P1, set_option f n pr o s P = Ok P1) /\
  (~ takes n pr o s -> set_option f n pr o s P = Throw InvalidArgument).
Proof.
  intros E P f n pr o s B. apply built_wf in B.
  enough (V : verdict (set_option f n pr o s P) (takes n pr o s)) by (destruct V as [[V H]|[V H]]; split; intros; tauto || contradiction).
  destruct (name_kind n) as [[k ->]|N].
  2: {
    assert (Z : forall l, Forall (fun x => exists k, fst (fst x) = arg_name k) l -> ~ In (n, pr, o) l).
    { intros l F I. rewrite Forall_forall in F. destruct (F _ I) as (k & Q). exact (N k Q). }
    Local Ltac row k := apply Forall_cons; [exists k; reflexivity|].
    assert (Zi : ~ In (n, pr, o) int_options) by (apply Z; unfold int_options; do 2 row AInt; do 2 row AFile; apply Forall_nil).
    assert (Zd : ~ In (n, pr, o) double_options) by (apply Z; unfold double_options; do 2 row ADouble; apply Forall_nil).
    assert (Zw : ~ In (n, pr, o) switch_options) by (apply Z; unfold switch_options; row ASwitch; apply Forall_nil).
    assert (Zs : ~ In (n, pr, o) set_options) by (apply Z; unfold set_options; row AFile; do 2 row AString; apply Forall_nil).
    assert (Zl : ~ In (n, pr, o) list_options) by (apply Z; unfold list_options; cbn [map]; do 5 row AFile; apply Forall_nil).
    clear Z. pose proof (N AInt) as N1. pose proof (N ADouble) as N2. pose proof (N AString) as N3. pose proof (N ASwitch) as N4. pose proof (N AFile) as N5.
    cbn [arg_name] in *. apply str_eqb_neq in N1, N2, N3, N4, N5.
    destruct s as [v|v|v|l|l]; cbn [set_option takes];
      [unfold setFlagArgOpt_int|unfold setFlagArgOpt_dbl|unfold setFlagArgOpt_str|unfold setFlagArgOpt_set|unfold setFlagArgOpt_vec];
      rewrite ?N1, ?N2, ?N3, ?N4, ?N5; apply verdict_no; tauto. }
  destruct (the_arg_shape k f P B) as [Sh Ka].
  assert (Off : forall l, rows_of (arg_name k) l = [] -> ~ In (arg_name k, pr, o) l) by (intros l Q I; apply rows_in in I; rewrite Q in I; exact I).
  assert (Tab : forall K l, rows_of (arg_name k) l = concat (map (fun p => map (fun o => (arg_name k, prop_name p, o)) (prop_opts p)) K) ->
            (In (arg_name k, pr, o) l <-> has K pr o)).
  { intros K l Q. rewrite rows_in. apply table. exact Q. }
  destruct s as [v|v|v|l|l]; cbn [set_option takes].
  - Local Ltac off Off l := let Q := fresh "O" in assert (Q := Off l eq_refl); revert Q.
    destruct k; unfold setFlagArgOpt_int.
    + change (str_eqb (arg_name AInt) $"ARGUMENT_INT") with true. cbv iota.
      apply (verdict_iff _ (has [PInt] pr o)); [rewrite <- (Tab [PInt] int_options eq_refl); off Off switch_options; tauto|].
      apply (verdict_bind _ (fun m => with_int m P)). apply (upd_verdict AInt f _ _ P _ eq_refl).
      pose proof (int_verdict pr o v _ Sh) as V. rewrite Ka in V. exact V.
    + change (str_eqb (arg_name ADouble) $"ARGUMENT_INT") with false. change (str_eqb (arg_name ADouble) $"ARGUMENT_STRING") with false.
      change (str_eqb (arg_name ADouble) $"ARGUMENT_SWITCH") with false. change (str_eqb (arg_name ADouble) $"ARGUMENT_FILE") with false.
      cbv iota. apply verdict_no. off Off switch_options. off Off int_options. tauto.
    + change (str_eqb (arg_name AString) $"ARGUMENT_INT") with false. change (str_eqb (arg_name AString) $"ARGUMENT_STRING") with true. cbv iota.
      apply (verdict_iff _ (has [] pr o)). { pose proof (has_nil pr o). off Off switch_options. off Off int_options. tauto. }
      apply (verdict_bind _ (fun m => with_str m P)). apply (upd_verdict AString f _ _ P _ eq_refl).
      pose proof (int_verdict pr o v _ Sh) as V. rewrite Ka in V. exact V.
    + change (str_eqb (arg_name ASwitch) $"ARGUMENT_INT") with false. change (str_eqb (arg_name ASwitch) $"ARGUMENT_STRING") with false.
      change (str_eqb (arg_name ASwitch) $"ARGUMENT_SWITCH") with true. cbv iota.
      assert (G : forall t, verdict (m <- update_arg (ArgumentSwitch E) f (setArgPropertyOpt_str E pr o t) (switch_arg P) ;; Ok (with_switch m P)) (has [PSwitch] pr o)).
      { intros t. apply (verdict_bind _ (fun m => with_switch m P)). apply (upd_verdict ASwitch f _ _ P _ eq_refl). exact (switch_verdict pr o t _ Sh Ka). }
      pose proof (Tab [PSwitch] switch_options eq_refl) as T1. off Off int_options. intros O1.
      destruct (Z.eqb_spec v 0) as [->|N0]; [apply (verdict_iff _ (has [PSwitch] pr o)); [tauto|apply G]|].
      destruct (Z.eqb_spec v 1) as [->|N1]; [apply (verdict_iff _ (has [PSwitch] pr o)); [tauto|apply G]|].
      apply verdict_no. tauto.
    + change (str_eqb (arg_name AFile) $"ARGUMENT_INT") with false. change (str_eqb (arg_name AFile) $"ARGUMENT_STRING") with false.
      change (str_eqb (arg_name AFile) $"ARGUMENT_SWITCH") with false. change (str_eqb (arg_name AFile) $"ARGUMENT_FILE") with true. cbv iota.
      apply (verdict_iff _ (has [PFileExist] pr o)); [rewrite <- (Tab [PFileExist] int_options eq_refl); off Off switch_options; tauto|].
      apply (verdict_bind _ (fun m => with_file m P)). apply (upd_verdict AFile f _ _ P _ eq_refl).
      pose proof (int_verdict pr o v _ Sh) as V. rewrite Ka in V. exact V.
  - destruct k; unfold setFlagArgOpt_dbl.
    + change (str_eqb (arg_name AInt) $"ARGUMENT_DOUBLE") with false. change (str_eqb (arg_name AInt) $"ARGUMENT_STRING") with false.
      cbv iota. apply verdict_no. off Off double_options. tauto.
    + change (str_eqb (arg_name ADouble) $"ARGUMENT_DOUBLE") with true. cbv iota.
      apply (verdict_iff _ (has [PDouble] pr o)); [rewrite <- (Tab [PDouble] double_options eq_refl); tauto|].
      apply (verdict_bind _ (fun m => with_double m P)). apply (upd_verdict ADouble f _ _ P _ eq_refl).
      pose proof (dbl_verdict pr o v _ Sh) as V. rewrite Ka in V. exact V.
    + change (str_eqb (arg_name AString) $"ARGUMENT_DOUBLE") with false. change (str_eqb (arg_name AString) $"ARGUMENT_STRING") with true. cbv iota.
      apply (verdict_iff _ (has [] pr o)). { pose proof (has_nil pr o). off Off double_options. tauto. }
      apply (verdict_bind _ (fun m => with_str m P)). apply (upd_verdict AString f _ _ P _ eq_refl).
      pose proof (dbl_verdict pr o v _ Sh) as V. rewrite Ka in V. exact V.
    + change (str_eqb (arg_name ASwitch) $"ARGUMENT_DOUBLE") with false. change (str_eqb (arg_name ASwitch) $"ARGUMENT_STRING") with false.
      cbv iota. apply verdict_no. off Off double_options. tauto.
    + change (str_eqb (arg_name AFile) $"ARGUMENT_DOUBLE") with false. change (str_eqb (arg_name AFile) $"ARGUMENT_STRING") with false.
      cbv iota. apply verdict_no. off Off double_options. tauto.
  - destruct k; unfold setFlagArgOpt_str; cbv zeta.
    + change (str_eqb (arg_name AInt) $"ARGUMENT_FILE") with false. change (str_eqb (arg_name AInt) $"ARGUMENT_SWITCH") with false.
      change (str_eqb (arg_name AInt) $"ARGUMENT_STRING") with false. cbv iota. apply verdict_no.
      off Off set_options. off Off list_options. off Off switch_options. tauto.
    + change (str_eqb (arg_name ADouble) $"ARGUMENT_FILE") with false. change (str_eqb (arg_name ADouble) $"ARGUMENT_SWITCH") with false.
      change (str_eqb (arg_name ADouble) $"ARGUMENT_STRING") with false. cbv iota. apply verdict_no.
      off Off set_options. off Off list_options. off Off switch_options. tauto.
    + change (str_eqb (arg_name AString) $"ARGUMENT_FILE") with false. change (str_eqb (arg_name AString) $"ARGUMENT_SWITCH") with false.
      change (str_eqb (arg_name AString) $"ARGUMENT_STRING") with true. cbv iota.
      apply (verdict_iff _ (has [PChoice] pr o)); [rewrite <- (Tab [PChoice] set_options eq_refl); off Off switch_options; off Off list_options; tauto|].
      apply (verdict_bind _ (fun m => with_str m P)). apply (upd_verdict AString f _ _ P _ eq_refl).
      pose proof (set_verdict pr o [v] _ Sh) as V. rewrite Ka in V. exact V.
    + change (str_eqb (arg_name ASwitch) $"ARGUMENT_FILE") with false. change (str_eqb (arg_name ASwitch) $"ARGUMENT_SWITCH") with true. cbv iota.
      off Off set_options. off Off list_options. intros O1 O2. pose proof (Tab [PSwitch] switch_options eq_refl) as T1.
      destruct (str_eqb_spec v $"OFF") as [Qf|Nf], (str_eqb_spec v $"ON") as [Qn|Nn]; cbn [negb andb];
        [..|apply verdict_no; tauto];
        (apply (verdict_iff _ (has [PSwitch] pr o)); [tauto|]; apply (verdict_bind _ (fun m => with_switch m P));
         apply (upd_verdict ASwitch f _ _ P _ eq_refl); exact (switch_verdict pr o v _ Sh Ka)).
    + change (str_eqb (arg_name AFile) $"ARGUMENT_FILE") with true. cbv iota.
      apply (verdict_iff _ (has [PFileExt; PSister] pr o)).
      { off Off switch_options. pose proof (Tab [PFileExt] set_options eq_refl) as T1. pose proof (Tab [PSister] list_options eq_refl) as T2.
        assert (X : has [PFileExt; PSister] pr o <-> has [PFileExt] pr o \/ has [PSister] pr o).
        { rewrite !has_one. split; [intros (q & [<-|[<-|[]]] & H); auto|intros [H|H]; [exists PFileExt|exists PSister]; (split; [cbn [In]; auto|exact H])]. }
        tauto. }
      apply (verdict_bind _ (fun m => with_file m P)). apply (upd_verdict AFile f _ _ P _ eq_refl).
      destruct (str_eqb_spec pr $"PROPERTY_FILE_EXT") as [Q|Nx].
      { pose proof (set_verdict pr o [v] _ Sh) as V. rewrite Ka in V. cbn [kset] in V. revert V. apply verdict_iff.
        rewrite has_one. split; [intros H; exists PFileExt; split; [cbn [In]; auto|exact H]|].
        intros (q & [<-|[<-|[]]] & H); [exact H|]. exfalso. destruct H as [H _]. rewrite Q in H. vm_compute in H. discriminate. }
      destruct (str_eqb_spec pr $"PROPERTY_SISTER_FILE_EXT") as [Q|Ny]; [|rewrite andb_false_r; exact (file_verdict pr o v _ Sh Ka)].
      destruct (negb (m_has f (file_arg P))); cbn [andb]; [|exact (file_verdict pr o v _ Sh Ka)].
      pose proof (vec_verdict pr o [v] _ Sh) as V. rewrite Ka in V. cbn [ParserWf.kv] in V. revert V. apply verdict_iff.
      rewrite has_one. split; [intros [H _]; rewrite Q in H; vm_compute in H; discriminate|].
      intros (q & [<-|[<-|[]]] & H & _); rewrite Q in H; vm_compute in H; discriminate.
  - destruct k; unfold setFlagArgOpt_set.
    + change (str_eqb (arg_name AInt) $"ARGUMENT_FILE") with false. change (str_eqb (arg_name AInt) $"ARGUMENT_STRING") with false.
      cbv iota. apply verdict_no. off Off set_options. tauto.
    + change (str_eqb (arg_name ADouble) $"ARGUMENT_FILE") with false. change (str_eqb (arg_name ADouble) $"ARGUMENT_STRING") with false.
      cbv iota. apply verdict_no. off Off set_options. tauto.
    + change (str_eqb (arg_name AString) $"ARGUMENT_FILE") with false. change (str_eqb (arg_name AString) $"ARGUMENT_STRING") with true. cbv iota.
      apply (verdict_iff _ (has [PChoice] pr o)); [rewrite <- (Tab [PChoice] set_options eq_refl); tauto|].
      apply (verdict_bind _ (fun m => with_str m P)). apply (upd_verdict AString f _ _ P _ eq_refl).
      pose proof (set_verdict pr o l _ Sh) as V. rewrite Ka in V. exact V.
    + change (str_eqb (arg_name ASwitch) $"ARGUMENT_FILE") with false. change (str_eqb (arg_name ASwitch) $"ARGUMENT_STRING") with false.
      cbv iota. apply verdict_no. off Off set_options. tauto.
    + change (str_eqb (arg_name AFile) $"ARGUMENT_FILE") with true. cbv iota.
      apply (verdict_iff _ (has [PFileExt] pr o)); [rewrite <- (Tab [PFileExt] set_options eq_refl); tauto|].
      apply (verdict_bind _ (fun m => with_file m P)). apply (upd_verdict AFile f _ _ P _ eq_refl).
      pose proof (set_verdict pr o l _ Sh) as V. rewrite Ka in V. exact V.
  - unfold setFlagArgOpt_vec. destruct k;
      try (match goal with |- verdict (if ?b then _ else _) _ => change b with false end; cbv iota; apply verdict_no; off Off list_options; tauto).
    change (str_eqb (arg_name AFile) $"ARGUMENT_FILE") with true. cbv iota.
    apply (verdict_iff _ (has [PSister] pr o)); [rewrite <- (Tab [PSister] list_options eq_refl); tauto|].
    apply (verdict_bind _ (fun m => with_file m P)). apply (upd_verdict AFile f _ _ P _ eq_refl).
    pose proof (vec_verdict pr o l _ Sh) as V. rewrite Ka in V. exact V.
Qed.
Print Assumptions C89_accepted.
(** a case: "must exist" of a file is a number; given as a word it is refused, and so are the lengths of a string, however they are given *)
Example C89_accepted_example :
  takes $"ARGUMENT_FILE" $"PROPERTY_FILE_EXIST" $"FILE_MUST_EXIST" (@SInt (mkEnv Z Z.ltb (-1000) 1000 dec stoi (fun _ => false)) 1) /\
  ~ takes $"ARGUMENT_FILE" $"PROPERTY_FILE_EXIST" $"FILE_MUST_EXIST" (@SStr (mkEnv Z Z.ltb (-1000) 1000 dec stoi (fun _ => false)) $"true") /\
  forall E s, ~ @takes E $"ARGUMENT_STRING" $"PROPERTY_STRING" $"MIN_LENGTH" s.
Proof.
  split; [vm_compute; tauto|]. split.
  - intros H. vm_compute in H. intuition discriminate.
  - intros E [] H; vm_compute in H; intuition discriminate.
Qed.
