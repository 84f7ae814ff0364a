(** * Well-formedness of every parser built through the public interface *)
From Verif Require Export ArgsFacts ParserSpec.
Open Scope Z_scope.

(** ** the order of keys *)
Lemma ltb_irrefl a : str_ltb a a = false.
Proof. induction a as [|x a IH]; simpl; auto. rewrite Z.ltb_irrefl, Z.eqb_refl, IH. auto. Qed.
Lemma code_inj x y : code x = code y -> x = y.
Proof.
  unfold code. intros H. apply Nat2Z.inj in H. rewrite <- (ascii_nat_embedding x), <- (ascii_nat_embedding y). congruence.
Qed.
Lemma ltb_cons x a y b : str_ltb (x :: a) (y :: b) = true <-> code x < code y \/ (x = y /\ str_ltb a b = true).
Proof.
  simpl. rewrite orb_true_iff, andb_true_iff, Z.ltb_lt, Z.eqb_eq. split; intros [H|[H1 H2]]; auto.
  - right. split; auto. now apply code_inj.
  - right. subst; auto.
Qed.
Lemma ltb_trans a : forall b c, str_ltb a b = true -> str_ltb b c = true -> str_ltb a c = true.
Proof.
  induction a as [|x a IH]; intros [|y b] [|z c] H1 H2; try discriminate; auto.
  rewrite ltb_cons in *. destruct H1 as [H1|[-> H1]], H2 as [H2|[-> H2]]; auto; [left; lia|]. right. eauto.
Qed.
Lemma ltb_total a : forall b, str_ltb a b = true \/ a = b \/ str_ltb b a = true.
Proof.
  induction a as [|x a IH]; intros [|y b]; auto. rewrite !ltb_cons.
  destruct (Z.lt_trichotomy (code x) (code y)) as [H|[H|H]]; auto. apply code_inj in H. subst.
  destruct (IH b) as [H|[->|H]]; auto.
Qed.

(** ** sorted maps *)
Fixpoint sorted {V} (m : smap V) : Prop :=
  match m with [] => True | it :: t => Forall (fun x => str_ltb (fst it) (fst x) = true) t /\ sorted t end.
Lemma in_m_set {V} k (v : V) m : sorted m -> forall it, In it (m_set k v m) <-> it = (k, v) \/ (In it m /\ fst it <> k).
Proof.
  induction m as [|[k' v'] t IH]; intros S it; simpl.
  - intuition.
  - destruct S as [S1 S2]. cbn [fst] in *. rewrite Forall_forall in S1.
    destruct (str_eqb_spec k k') as [->|N].
    + simpl. split.
      * intros [<-|H]; auto. right. split; auto. intros K. specialize (S1 _ H). rewrite K, ltb_irrefl in S1. discriminate.
      * intros [->|[[<-|H] K]]; auto. simpl in K. congruence.
    + destruct (str_ltb k k') eqn:L; simpl.
      * split.
        { intros [<-|[<-|H]]; auto. right. split; auto. intros K. specialize (S1 _ H). rewrite K in S1.
          pose proof (ltb_trans _ _ _ S1 L) as F. rewrite ltb_irrefl in F. discriminate. }
        { intros [->|[[<-|H] K]]; auto. }
      * rewrite IH by auto. split.
        { intros [<-|[->|[H K]]]; auto. }
        { intros [->|[[<-|H] K]]; auto. }
Qed.
Lemma sorted_set {V} k (v : V) m : sorted m -> sorted (m_set k v m).
Proof.
  induction m as [|[k' v'] t IH]; intros S; simpl; [auto|].
  destruct S as [S1 S2]. cbn [fst] in *. destruct (str_eqb_spec k k') as [->|N]; [split; auto|].
  destruct (str_ltb k k') eqn:L; simpl.
  - split; [|split; auto]. constructor; auto. rewrite Forall_forall in *. intros x Hx. eapply ltb_trans; [apply L|]. apply S1; auto.
  - split; auto. rewrite Forall_forall in *. intros x Hx. apply in_m_set in Hx; auto. destruct Hx as [->|[Hx _]]; auto.
    simpl. destruct (ltb_total k k') as [H|[H|H]]; congruence.
Qed.
Lemma find_in {V} k (v : V) m : sorted m -> (m_find k m = Some v <-> In (k, v) m).
Proof.
  induction m as [|[k' v'] t IH]; intros S; simpl; [split; intros H; [discriminate|destruct H]|].
  destruct S as [S1 S2]. cbn [fst] in *. destruct (str_eqb_spec k k') as [->|N].
  - split; [intros H; inversion H; auto|]. intros [H|H]; [inversion H; auto|].
    rewrite Forall_forall in S1. specialize (S1 _ H). simpl in S1. rewrite ltb_irrefl in S1. discriminate.
  - rewrite IH by auto. split; auto. intros [H|H]; auto. inversion H; congruence.
Qed.
Lemma find_not_in {V} k (m : smap V) : m_find k m = None -> forall v, ~ In (k, v) m.
Proof.
  induction m as [|[k' v'] t IH]; simpl; intros H v; [tauto|].
  destruct (str_eqb_spec k k') as [->|N]; [discriminate|]. intros [K|K]; [congruence|]. eapply IH; eauto.
Qed.
Lemma m_has_iff {V} k (m : smap V) : m_has k m = true <-> exists v, m_find k m = Some v.
Proof. unfold m_has. destruct (m_find k m); split; eauto; try discriminate. intros [v H]; discriminate. Qed.

(** ** argument objects *)
Section Wf.
Context {E : env}.

(** all options of its class are defined, and no others *)
Definition full_prop {T} (p : prop T) : Prop :=
  (forall o, In o (prop_opts (p_kind p)) -> exists v, getPropOption p o = Ok v) /\
  (forall o v, getPropOption p o = Ok v -> In o (prop_opts (p_kind p))).
Definition keeps {T} (p p' : prop T) : Prop :=
  p_kind p' = p_kind p /\ (forall o v, getPropOption p o = Ok v -> exists v', getPropOption p' o = Ok v') /\
  (forall o v, getPropOption p' o = Ok v -> In o (prop_opts (p_kind p)) \/ exists v', getPropOption p o = Ok v').
Lemma keeps_refl {T} (p : prop T) : keeps p p. Proof. split; [auto|split; eauto]. Qed.
Lemma keeps_set {T} (p p' : prop T) o v : (In o (prop_opts (p_kind p)) \/ exists w, getPropOption p o = Ok w) ->
  keeps p p' -> keeps p (setPropOption_ o v p').
Proof.
  intros I [K [H H']]. split; auto. split; intros o2 v2 G; destruct (str_dec o2 o) as [->|N]; auto.
  - exists v. apply get_set.
  - rewrite get_set_ne by auto. eauto.
  - rewrite get_set_ne in G by auto. eauto.
Qed.
Lemma keeps_full {T} (p p' : prop T) : keeps p p' -> full_prop p -> full_prop p'.
Proof.
  intros [K [H H']] [F F']. split; intros o; rewrite K.
  - intros Ho. destruct (F o Ho) as [v G]. eauto.
  - intros v G. destruct (H' o v G) as [I|[w G']]; eauto.
Qed.

Lemma bind_inv {A B} (x : outcome A) (k : A -> outcome B) b : bind x k = Ok b -> exists a, x = Ok a /\ k a = Ok b.
Proof. apply bind_ok. Qed.
Ltac bd H := repeat (let x := fresh "x" in let Hx := fresh "Hx" in apply bind_ok in H as (x & Hx & H)).

Lemma v_int_keeps w p p' : v_int E w p = Ok p' -> keeps p p'.
Proof.
  unfold v_int. destruct (p_kind p) eqn:Kp; try (intros H; inversion H; apply keeps_refl).
  unfold exist_propValid. intros H. apply bind_ok in H as (m & _ & H).
  assert (I : In $"FILE_DOES_EXIST" (prop_opts (p_kind p))) by (rewrite Kp; cbn; tauto).
  destruct (negb (m =? 0)), (file_exists E w);
    cbn [negb] in H; inversion H; subst; auto using keeps_refl, keeps_set.
Qed.
Lemma v_size_same w p p' : v_size w p = Ok p' -> p' = p.
Proof.
  unfold v_size. destruct (p_kind p); try (intros H; inversion H; auto). clear H1.
  unfold string_propValid in H. apply bind_ok in H as (m & _ & H). destruct (m <? len w); [discriminate|].
  apply bind_ok in H as (m2 & _ & H). destruct (len w <? m2); inversion H; auto.
Qed.
Lemma v_str_same w p p' : v_str w p = Ok p' -> p' = p.
Proof.
  unfold v_str. destruct (p_kind p); try (intros H; inversion H; auto). clear H1.
  unfold switch_propValid in H. destruct (existsb _ _); inversion H; auto.
Qed.
Lemma v_set_same w p p' : v_set w p = Ok p' -> p' = p.
Proof.
  unfold v_set. destruct (p_kind p); try (intros H; inversion H; auto); clear H1.
  - unfold ext_propValid in H. apply bind_ok in H as (? & _ & H). apply bind_ok in H as (? & _ & H).
    apply bind_ok in H as (? & _ & H). inversion H; auto.
  - unfold choice_propValid in H. apply bind_ok in H as (o & _ & H). destruct o as [|v l]; [discriminate|].
    destruct (str_eqb v s_true); [|inversion H; auto]. apply bind_ok in H as (? & _ & H). destruct (existsb _ _); inversion H; auto.
Qed.
Lemma v_vec_keeps w p p' : v_vec E w p = Ok p' -> keeps p p'.
Proof.
  unfold v_vec. destruct (p_kind p) eqn:Kp; try (intros H; inversion H; apply keeps_refl).
  unfold sister_propValid. intros H. apply bind_ok in H as (? & _ & H). apply bind_ok in H as (? & _ & H).
  apply bind_ok in H as (? & _ & H). apply bind_ok in H as (? & _ & H). inversion H; subst.
  repeat (apply keeps_set; [rewrite Kp; cbn; tauto|]). apply keeps_refl.
Qed.
Lemma int_same v p p' : int_propValid v p = Ok p' -> p' = p.
Proof.
  unfold int_propValid. intros H. apply bind_ok in H as (? & _ & H). destruct (v <? x); [discriminate|].
  apply bind_ok in H as (? & _ & H). destruct (_ <? v); inversion H; auto.
Qed.
Lemma dbl_same v p p' : double_propValid E v p = Ok p' -> p' = p.
Proof.
  unfold double_propValid. intros H. apply bind_ok in H as (? & _ & H). destruct (d_lt E v x); [discriminate|].
  apply bind_ok in H as (? & _ & H). destruct (d_lt E _ v); inversion H; auto.
Qed.

Lemma each_rel {A} (R : A -> A -> Prop) (f : A -> outcome A) l : forall l', (forall x y, f x = Ok y -> R x y) ->
  each f l = Ok l' -> Forall2 R l l'.
Proof.
  induction l as [|x t IH]; intros l' H E1; simpl in E1; [inversion E1; constructor|].
  apply bind_ok in E1 as (y & E2 & E1). apply bind_ok in E1 as (t' & E3 & E1). inversion E1; subst. constructor; auto.
Qed.
Lemma each_same {A} (f : A -> outcome A) l l' : (forall x y, f x = Ok y -> y = x) -> each f l = Ok l' -> l' = l.
Proof.
  intros H E1. apply (each_rel (fun x y => y = x)) in E1; auto. induction E1; subst; auto.
Qed.

(** classes of the property objects of an argument *)
Definition ki (k : akind) := match k with AInt => [PInt] | AFile => [PFileExist] | _ => [] end.
Definition kd (k : akind) := match k with ADouble => [PDouble] | _ => [] end.
Definition kz (k : akind) := match k with AString => [PString] | _ => [] end.
Definition ks (k : akind) := match k with ASwitch => [PSwitch] | _ => [] end.
Definition kset (k : akind) := match k with AString => [PChoice] | AFile => [PFileExt] | _ => [] end.
Definition kv (k : akind) := match k with AFile => [PSister] | _ => [] end.
Record shape (a : arg E) : Prop := {
  sh_int : map p_kind (a_int E a) = ki (a_kind E a) /\ Forall full_prop (a_int E a);
  sh_dbl : map p_kind (a_dbl E a) = kd (a_kind E a) /\ Forall full_prop (a_dbl E a);
  sh_size : map p_kind (a_size E a) = kz (a_kind E a) /\ Forall full_prop (a_size E a);
  sh_str : map p_kind (a_str E a) = ks (a_kind E a) /\ Forall full_prop (a_str E a);
  sh_set : map p_kind (a_set E a) = kset (a_kind E a) /\ Forall full_prop (a_set E a);
  sh_vec : map p_kind (a_vec E a) = kv (a_kind E a) /\ Forall full_prop (a_vec E a) }.

Lemma keeps_list {T} (l l' : list (prop T)) K : Forall2 keeps l l' ->
  map p_kind l = K /\ Forall full_prop l -> map p_kind l' = K /\ Forall full_prop l'.
Proof.
  intros F [H1 H2]. revert K H1 H2. induction F as [|p p' l l' R F IH]; intros K H1 H2; simpl in *; auto.
  inversion H2; subst. destruct (IH _ eq_refl H4) as [I1 I2]. split.
  - destruct R as [R _]. congruence.
  - constructor; auto. eapply keeps_full; eauto.
Qed.
Lemma argValid_str_shape w a a' : argValid_str E w a = Ok a' -> shape a -> shape a' /\ a_kind E a' = a_kind E a.
Proof.
  unfold argValid_str. intros H [S1 S2 S3 S4 S5 S6].
  apply bind_ok in H as (i & Hi & H). apply bind_ok in H as (z & Hz & H). apply bind_ok in H as (s & Hs & H).
  apply bind_ok in H as (st & Hst & H). apply bind_ok in H as (v & Hv & H). inversion H; subst. clear H.
  apply each_same in Hz; [|apply v_size_same]. apply each_same in Hs; [|apply v_str_same]. apply each_same in Hst; [|apply v_set_same].
  subst. split; auto. constructor; cbn [a_int a_dbl a_size a_str a_set a_vec a_kind]; auto.
  - eapply keeps_list; [eapply each_rel; [apply v_int_keeps|eauto]|auto].
  - eapply keeps_list; [eapply each_rel; [apply v_vec_keeps|eauto]|auto].
Qed.
Lemma argValid_int_same v a a' : argValid_int E v a = Ok a' -> a' = a.
Proof.
  unfold argValid_int. intros H. apply bind_ok in H as (i & Hi & H). inversion H; subst.
  apply each_same in Hi; [|apply int_same]. subst. destruct a; auto.
Qed.
Lemma argValid_dbl_same v a a' : argValid_dbl E v a = Ok a' -> a' = a.
Proof.
  unfold argValid_dbl. intros H. apply bind_ok in H as (i & Hi & H). inversion H; subst.
  apply each_same in Hi; [|apply dbl_same]. subst. destruct a; auto.
Qed.

Lemma set_in_keeps {T} pr o (v : T) ps : forall r, set_in pr o v ps = Ok r -> Forall2 keeps ps (snd r).
Proof.
  induction ps as [|p t IH]; intros r H; simpl in H; [inversion H; constructor|].
  destruct (str_eqb pr (prop_name (p_kind p))).
  - apply bind_ok in H as (p' & Hp & H). apply bind_ok in H as (r' & Hr & H). inversion H; subst. constructor; auto.
    unfold setPropOption in Hp. destruct (propOptionValid_ p o) eqn:V; inversion Hp. apply keeps_set; [|apply keeps_refl].
    right. unfold propOptionValid_, m_has in V. unfold getPropOption. destruct (m_find o (p_options p)); [eauto|discriminate].
  - apply bind_ok in H as (r' & Hr & H). inversion H; subst. constructor; auto using keeps_refl.
Qed.
Ltac set_shape S :=
  destruct S as [S1 S2 S3 S4 S5 S6]; split; [|reflexivity];
  constructor; cbn [a_int a_dbl a_size a_str a_set a_vec a_kind]; auto;
  (eapply keeps_list; [eapply set_in_keeps; eauto|auto]).
Lemma set_int_shape pr o v a a' : setArgPropertyOpt_int E pr o v a = Ok a' -> shape a -> shape a' /\ a_kind E a' = a_kind E a.
Proof. unfold setArgPropertyOpt_int. intros H S. apply bind_ok in H as (r & Hr & H). destruct (fst r); inversion H; subst. set_shape S. Qed.
Lemma set_dbl_shape pr o v a a' : setArgPropertyOpt_dbl E pr o v a = Ok a' -> shape a -> shape a' /\ a_kind E a' = a_kind E a.
Proof. unfold setArgPropertyOpt_dbl. intros H S. apply bind_ok in H as (r & Hr & H). destruct (fst r); inversion H; subst. set_shape S. Qed.
Lemma set_set_shape pr o v a a' : setArgPropertyOpt_set E pr o v a = Ok a' -> shape a -> shape a' /\ a_kind E a' = a_kind E a.
Proof. unfold setArgPropertyOpt_set. intros H S. apply bind_ok in H as (r & Hr & H). destruct (fst r); inversion H; subst. set_shape S. Qed.
Lemma set_vec_shape pr o v a a' : setArgPropertyOpt_vec E pr o v a = Ok a' -> shape a -> shape a' /\ a_kind E a' = a_kind E a.
Proof. unfold setArgPropertyOpt_vec. intros H S. apply bind_ok in H as (r & Hr & H). destruct (fst r); inversion H; subst. set_shape S. Qed.
Lemma set_str_shape pr o v a a' : setArgPropertyOpt_str E pr o v a = Ok a' -> shape a -> shape a' /\ a_kind E a' = a_kind E a.
Proof.
  unfold setArgPropertyOpt_str. intros H S. apply bind_ok in H as (r1 & H1 & H). apply bind_ok in H as (r2 & H2 & H).
  apply bind_ok in H as (r3 & H3 & H). destruct (fst r1 || fst r2 || fst r3); inversion H; subst. set_shape S.
Qed.

Lemma find_in_keys {V} k (m : smap V) v : m_find k m = Some v -> In k (map fst m).
Proof.
  induction m as [|[k' v'] t IH]; simpl; [discriminate|]. destruct (str_eqb_spec k k') as [->|]; auto.
Qed.
Ltac key_cases Ho :=
  match type of Ho with context [match m_find ?o ?m with _ => _ end] =>
    let F := fresh in destruct (m_find o m) eqn:F; [|discriminate]; apply find_in_keys in F; vm_compute in F; vm_compute; tauto end.
Ltac new_shape := constructor; (split; [reflexivity|]);
  cbn [a_int a_dbl a_size a_str a_set a_vec ArgumentInt ArgumentDouble ArgumentString ArgumentSwitch ArgumentFile];
  repeat (apply Forall_nil || apply Forall_cons);
  (split; [intros o Ho; cbn in Ho; repeat (destruct Ho as [<-|Ho]; [eexists; reflexivity|]); destruct Ho
          |intros o v Ho; unfold getPropOption in Ho; key_cases Ho]).
Lemma new_int : shape (ArgumentInt E). Proof. new_shape. Qed.
Lemma new_double : shape (ArgumentDouble E). Proof. new_shape. Qed.
Lemma new_string : shape (ArgumentString E). Proof. new_shape. Qed.
Lemma new_switch : shape (ArgumentSwitch E). Proof. new_shape. Qed.
Lemma new_file : shape (ArgumentFile E). Proof. new_shape. Qed.

(** ** maps of arguments *)
Definition wf_map (k : akind) (m : smap (arg E)) : Prop :=
  sorted m /\ forall it, In it m -> a_kind E (snd it) = k /\ shape (snd it).
Lemma wf_nil k : wf_map k []. Proof. split; simpl; tauto. Qed.
Lemma wf_find k m f a : wf_map k m -> m_find f m = Some a -> a_kind E a = k /\ shape a.
Proof. intros [S H] F. apply find_in in F; auto. apply (H (f, a)); auto. Qed.
Lemma wf_set k m f a : wf_map k m -> a_kind E a = k -> shape a -> wf_map k (m_set f a m).
Proof.
  intros [S H] K Sh. split; [apply sorted_set; auto|]. intros it Hi. apply in_m_set in Hi; auto.
  destruct Hi as [->|[Hi _]]; auto.
Qed.
Lemma wf_update k new f g m m' : wf_map k m -> a_kind E new = k -> shape new ->
  (forall a a', g a = Ok a' -> shape a -> shape a' /\ a_kind E a' = a_kind E a) ->
  update_arg new f g m = Ok m' -> wf_map k m'.
Proof.
  intros W K Sh G H. unfold update_arg in H. apply bind_ok in H as (a' & Ha & H). inversion H; subst.
  destruct (m_find f m) as [a|] eqn:F.
  - destruct (wf_find _ _ _ _ W F) as [K2 S2]. destruct (G _ _ Ha S2) as [S3 K3]. apply wf_set; auto. congruence.
  - destruct (G _ _ Ha Sh) as [S3 K3]. apply wf_set; auto.
Qed.

Record wf (P : parser E) : Prop := {
  w_str : wf_map AString (str_arg P); w_switch : wf_map ASwitch (switch_arg P); w_int : wf_map AInt (int_arg P);
  w_double : wf_map ADouble (double_arg P); w_file : wf_map AFile (file_arg P);
  w_flags : sorted (flags P);
  w_names : forall f a d, In (f, (a, d)) (flags P) -> is_full f = true /\ (is_short a = true \/ a = NO_SHORT) }.
End Wf.

(** ** reading an entry *)
Lemma firstN_small s n : 0 <= n < SIZE_MOD -> firstN s n = Ok (firstn (Z.to_nat n) s).
Proof.
  intros H. unfold firstN. rewrite size_t_small by auto. rewrite substr_ok by (pose proof (len_nonneg s); lia).
  change (Z.to_nat 0) with O. cbn [skipn]. f_equal. unfold len.
  destruct (Z.le_gt_cases n (Z.of_nat (length s))).
  - now rewrite Z.min_l by lia.
  - rewrite Z.min_r by lia. rewrite !firstn_all2; auto; lia.
Qed.
Lemma dashes item : 
  (str_eqb (firstn 2 item) $"--" = is_full item) /\
  (is_full item = false -> str_eqb (firstn 1 item) $"-" = is_short item).
Proof.
  destruct item as [|c [|d t]]; split; auto; unfold is_short, is_full, dash; cbn [firstn list_ascii_of_string str_eqb]; intros;
    rewrite ?H; cbn [negb]; rewrite ?andb_true_r; auto.
  destruct (Ascii.eqb c "-"); auto.
Qed.
Lemma short_not_full w : is_short w = true -> is_full w = false.
Proof. unfold is_short. destruct w as [|c t]; [discriminate|]. intros H. apply andb_prop in H as [_ H]. now apply negb_true_iff. Qed.
Lemma read_item_eq item e : let i := trim item in
  read_item item e =
  if is_full i then (if flag_name e then Throw InvalidArgument else Ok (mkEntry i (short_flag e) (desc e) (description e) (abbreviation e) true))
  else if is_short i then (if abbreviation e then Throw InvalidArgument else Ok (mkEntry (full_flag e) i (desc e) (description e) true (flag_name e)))
  else (if description e then Throw InvalidArgument else Ok (mkEntry (full_flag e) (short_flag e) i true (abbreviation e) (flag_name e))).
Proof.
  intros i. unfold read_item. fold i. rewrite !firstN_small by (unfold SIZE_MOD; lia). cbn [bind].
  change (Z.to_nat 2) with 2%nat. change (Z.to_nat 1) with 1%nat.
  destruct (dashes i) as [D1 D2]. rewrite D1. destruct (is_full i) eqn:F; auto. rewrite D2 by auto. auto.
Qed.
(** state of the entry after the items [q] *)
Definition read (q : list str) (e : entry) : Prop :=
  how_many is_full q = (if flag_name e then 1 else 0)%nat /\
  how_many is_short q = (if abbreviation e then 1 else 0)%nat /\
  how_many is_text q = (if description e then 1 else 0)%nat /\
  (if flag_name e then In (full_flag e) q /\ is_full (full_flag e) = true else full_flag e = NO_FLAG) /\
  (if abbreviation e then In (short_flag e) q /\ is_short (short_flag e) = true else short_flag e = NO_SHORT) /\
  (if description e then In (desc e) q /\ is_text (desc e) = true else desc e = NO_DESC).
Lemma how_many_app Q a b : how_many Q (a ++ b) = (how_many Q a + how_many Q b)%nat.
Proof. unfold how_many. now rewrite filter_app, app_length. Qed.
Lemma how_many_1 Q w : how_many Q [w] = (if Q w then 1 else 0)%nat.
Proof. unfold how_many; simpl. destruct (Q w); auto. Qed.
Definition few (q : list str) := (how_many is_full q <= 1 /\ how_many is_short q <= 1 /\ how_many is_text q <= 1)%nat.
Lemma read_step q e item : read q e -> 
  (few (q ++ [trim item]) -> exists e', read_item item e = Ok e' /\ read (q ++ [trim item]) e') /\
  (~ few (q ++ [trim item]) -> read_item item e = Throw InvalidArgument).
Proof.
  intros (H1 & H2 & H3 & H4 & H5 & H6). rewrite read_item_eq. set (i := trim item). unfold few, read. rewrite !how_many_app.
  assert (M : forall x, In x q -> In x (q ++ [i])) by (intros; apply in_or_app; auto).
  assert (Mi : In i (q ++ [i])) by (apply in_or_app; right; now left).
  assert (T : is_text i = negb (is_full i) && negb (is_short i)) by reflexivity.
  destruct (is_full i) eqn:F.
  - assert (Sh : is_short i = false) by (destruct (is_short i) eqn:S; auto; apply short_not_full in S; congruence).
    rewrite !how_many_1, F, Sh, T. cbn [negb andb].
    destruct (flag_name e); (split; intros K).
    + exfalso; lia.
    + reflexivity.
    + eexists; split; [reflexivity|]. cbn [full_flag short_flag desc description abbreviation flag_name].
      repeat split; auto; try lia; [destruct (abbreviation e); [intuition|auto]|destruct (description e); [intuition|auto]].
    + exfalso. apply K. destruct (abbreviation e), (description e); lia.
  - destruct (is_short i) eqn:Sh.
    + rewrite !how_many_1, F, Sh, T. cbn [negb andb].
      destruct (abbreviation e); (split; intros K).
      * exfalso; lia.
      * reflexivity.
      * eexists; split; [reflexivity|]. cbn [full_flag short_flag desc description abbreviation flag_name].
        repeat split; auto; try lia; [destruct (flag_name e); [intuition|auto]|destruct (description e); [intuition|auto]].
      * exfalso. apply K. destruct (flag_name e), (description e); lia.
    + rewrite !how_many_1, F, Sh, T. cbn [negb andb].
      destruct (description e); (split; intros K).
      * exfalso; lia.
      * reflexivity.
      * eexists; split; [reflexivity|]. cbn [full_flag short_flag desc description abbreviation flag_name].
        repeat split; auto; try lia; [destruct (flag_name e); [intuition|auto]|destruct (abbreviation e); [intuition|auto]].
      * exfalso. apply K. destruct (flag_name e), (abbreviation e); lia.
Qed.
Lemma few_prefix a b : few (a ++ b) -> few a.
Proof. unfold few. rewrite !how_many_app. lia. Qed.
Lemma few_dec q : few q \/ ~ few q.
Proof. unfold few. lia. Qed.
Lemma read_items items : forall q e, read q e ->
  (few (q ++ map trim items) -> exists e', for_each items read_item e = Ok e' /\ read (q ++ map trim items) e') /\
  (~ few (q ++ map trim items) -> for_each items read_item e = Throw InvalidArgument).
Proof.
  induction items as [|x t IH]; intros q e R; cbn [for_each map].
  - rewrite app_nil_r. split; eauto. intros N. exfalso. apply N. destruct R as (H1 & H2 & H3 & _). unfold few.
    destruct (flag_name e), (abbreviation e), (description e); lia.
  - destruct (read_step q e x R) as [S1 S2].
    replace (q ++ trim x :: map trim t) with ((q ++ [trim x]) ++ map trim t) by (now rewrite <- app_assoc).
    destruct (few_dec (q ++ [trim x])) as [F|F].
    + destruct (S1 F) as (e' & E1 & R'). rewrite E1. cbn [bind]. apply IH; auto.
    + rewrite S2 by auto. split; auto. intros K. exfalso. apply F. eapply few_prefix; eauto.
Qed.
Lemma how_many_total q : (how_many is_full q + how_many is_short q + how_many is_text q = length q)%nat.
Proof.
  unfold how_many. induction q as [|w t IH]; auto. cbn [filter]. unfold is_text at 1.
  pose proof (short_not_full w). destruct (is_full w), (is_short w); cbn [negb andb length] in *; try lia.
Qed.
Lemma read_entry_ok {E} items (P : parser E) :
  (good_entry items -> exists e, read (map trim items) e /\ flag_name e = true /\
  exists P', read_entry items P = Ok P' /\ flags P' = m_set (full_flag e) (short_flag e, desc e) (flags P) /\
  str_arg P' = str_arg P /\ switch_arg P' = switch_arg P /\ int_arg P' = int_arg P /\ double_arg P' = double_arg P /\
  file_arg P' = file_arg P /\
  maxFull P' = Z.max (maxFull P) (len (full_flag e)) /\
  maxShort P' = (if abbreviation e then Z.max (maxShort P) (len (short_flag e)) else maxShort P)) /\
  (~ good_entry items -> read_entry items P = Throw InvalidArgument).
Proof.
  unfold good_entry, read_entry. set (q := map trim items). set (e0 := mkEntry NO_FLAG NO_SHORT NO_DESC false false false).
  assert (R0 : read [] e0) by (repeat split).
  destruct (read_items items [] e0 R0) as [I1 I2]. cbn [app] in I1, I2. fold q in I1, I2.
  pose proof (how_many_total q) as T. assert (L : length q = length items) by (unfold q; apply map_length).
  destruct (Z.ltb_spec 3 (Z.of_nat (length items))) as [H3|H3].
  - split; auto. intros (G1 & G2 & G3). lia.
  - destruct (few_dec q) as [F|F].
    + destruct (I1 F) as (e & E1 & R). rewrite E1. cbn [bind]. destruct (flag_name e) eqn:Fn; cbn [negb].
      * split.
        { intros _. exists e. split; auto. split; auto. eexists; split; [reflexivity|]. repeat split; auto. }
        { intros N. exfalso. apply N. destruct R as (H1 & _). rewrite Fn in H1. unfold few in F. lia. }
      * split; auto. intros (G1 & _). destruct R as (H1 & _). rewrite Fn in H1. lia.
    + rewrite I2 by auto. split; auto. intros (G1 & G2 & G3). exfalso. apply F. unfold few. lia.
Qed.
Lemma good_dec items : good_entry items \/ ~ good_entry items.
Proof. unfold good_entry. lia. Qed.
