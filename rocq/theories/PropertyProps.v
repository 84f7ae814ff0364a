(** * C98: what a program may change in a property object *)
From Verif Require Import ArgsFacts ArgsProps.
From Verif Require Export PropertySpec.
Open Scope Z_scope.

Lemma extension_check e : (extension e /\ sister_checkExt e = Ok tt) \/ (~ extension e /\ sister_checkExt e = Throw InvalidArgument).
Proof.
  unfold sister_checkExt. destruct (ext_exists e) as (core & ext & Hs).
  destruct (dot_last _ _ _ Hs) as [E1 _]. rewrite E1. cbn [bind]. destruct Hs as [Eq D].
  destruct core as [|c core].
  - left. split; [|reflexivity]. simpl in Eq. subst ext. destruct D as [[-> _]|(t & -> & H)]; [now left|right; eauto].
  - right. split; [|reflexivity]. intros [->|(t & -> & H)]; [discriminate|]. inversion Eq; subst.
    destruct D as [[-> D]|(t' & -> & D)]; [apply D; now left|]. apply H. apply in_or_app; right; now left.
Qed.
Lemma extensions_check l : (Forall extension l -> for_each l (fun e _ => sister_checkExt e) tt = Ok tt) /\
  (~ Forall extension l -> for_each l (fun e _ => sister_checkExt e) tt = Throw InvalidArgument).
Proof.
  apply checks_all; intros e; destruct (extension_check e) as [[A B]|[A B]]; auto; split; auto; contradiction.
Qed.
Lemma extensions_dec l : Forall extension l \/ ~ Forall extension l.
Proof.
  induction l as [|e l [IH|IH]]; [auto| |].
  - destruct (extension_check e) as [[A _]|[A _]]; [left; auto|right; intros H; inversion H; auto].
  - right. intros H. inversion H; auto.
Qed.

(** a setter call either asks for well formed extensions, and then exactly that option changes, or it throws invalid_argument *)
Theorem C98_setters : forall E c (p : prop (list str)), ~ is_check c ->
  (forall exts, asks_for c exts -> exists p', sister_does E c p = Ok p' /\ getPropOption p' $"ALLOWED_SISTER_FILE_EXT" = Ok exts /\
     forall o, o <> $"ALLOWED_SISTER_FILE_EXT" -> getPropOption p' o = getPropOption p o) /\
  ((forall exts, ~ asks_for c exts) -> sister_does E c p = Throw InvalidArgument).
Proof.
  intros E [o v|o vs|path] p N; [| |destruct N; exact I]; cbn [asks_for sister_does]; split.
  - intros exts (-> & X & ->). unfold sister_setPropOption_str. rewrite str_eqb_refl. destruct (extension_check v) as [[_ ->]|[B _]]; [|contradiction].
    eexists. split; [reflexivity|]. split; [apply get_set|]. intros o No. apply get_set_ne. exact No.
  - intros H. unfold sister_setPropOption_str. destruct (str_eqb_spec o $"ALLOWED_SISTER_FILE_EXT") as [->|No].
    + destruct (extension_check v) as [[A _]|[_ ->]]; [|reflexivity]. destruct (H [v]). auto.
    + destruct (_ || _); reflexivity.
  - intros exts (-> & X & ->). unfold sister_setPropOption_vec. rewrite str_eqb_refl. rewrite (proj1 (extensions_check vs) X).
    eexists. split; [reflexivity|]. split; [apply get_set|]. intros o No. apply get_set_ne. exact No.
  - intros H. unfold sister_setPropOption_vec. destruct (str_eqb_spec o $"ALLOWED_SISTER_FILE_EXT") as [->|No]; [|reflexivity].
    destruct (extensions_dec vs) as [A|A]; [destruct (H vs); auto|]. rewrite (proj2 (extensions_check vs) A). reflexivity.
Qed.
Print Assumptions C98_setters.

Lemma asks_dec c : (exists x, asks_for c x) \/ (forall x, ~ asks_for c x).
Proof.
  destruct c as [o v|o vs|path]; cbn [asks_for].
  - destruct (str_dec o $"ALLOWED_SISTER_FILE_EXT") as [->|N]; [|right; tauto]. destruct (extension_check v) as [[A _]|[A _]]; [left; eauto|right; tauto].
  - destruct (str_dec o $"ALLOWED_SISTER_FILE_EXT") as [->|N]; [|right; tauto]. destruct (extensions_dec vs) as [A|A]; [left; eauto|right; tauto].
  - right. auto.
Qed.
Lemma not_defined_bad : ~ extension NOT_DEFINED.
Proof. intros [H|(t & H & _)]; discriminate H. Qed.

Section History.
Context (E : env).
Local Notation allowed p := (getPropOption p $"ALLOWED_SISTER_FILE_EXT").
Lemma hist_app l1 : forall p l2 q, sister_history E p (l1 ++ l2) q -> exists r, sister_history E p l1 r /\ sister_history E r l2 q.
Proof.
  induction l1 as [|c l1 IH]; intros p l2 q H; [exists p; split; [constructor|exact H]|]. cbn [app] in H. inversion H; subst.
  - destruct (IH _ _ _ H5) as (r & A & B). exists r. split; [econstructor; eauto|auto].
  - destruct (IH _ _ _ H5) as (r & A & B). exists r. split; [eapply sh_caught; eauto|auto].
Qed.
Lemma check_keeps path p q : sister_propValid E path p = Ok q -> allowed q = allowed p.
Proof.
  intros H. unfold sister_propValid in H. do 4 (apply bind_ok in H as (? & ?A & H)). injection H as <-.
  assert (N : forall a b, str_eqb a b = false -> a <> b) by (intros; apply str_eqb_neq; auto).
  repeat (rewrite get_set_ne by (apply N; reflexivity)). reflexivity.
Qed.
Lemma hist_allowed p l q : sister_history E p l q -> (forall c x, In c l -> ~ asks_for c x) -> allowed q = allowed p.
Proof.
  induction 1 as [|p c p1 l p2 S1 _ IH|p c e l p2 S1 _ IH]; intros N; [reflexivity| |].
  - rewrite IH by (intros; apply N; right; auto). destruct c as [o v|o vs|path].
    + destruct (C98_setters E (SetOne o v) p (fun x => x)) as [_ A]. rewrite (A (fun x => N _ x (or_introl eq_refl))) in S1. discriminate.
    + destruct (C98_setters E (SetMany o vs) p (fun x => x)) as [_ A]. rewrite (A (fun x => N _ x (or_introl eq_refl))) in S1. discriminate.
    + exact (check_keeps _ _ _ S1).
  - apply IH. intros; apply N; right; auto.
Qed.
Lemma computed_other o : In o computed -> o <> $"ALLOWED_SISTER_FILE_EXT".
Proof. unfold computed. cbn [In]. intros [<-|[<-|[<-|[<-|[]]]]]; apply str_eqb_neq; reflexivity. Qed.
Lemma hist_computed p l q : sister_history E p l q -> (forall c, In c l -> ~ is_check c) -> forall o, In o computed -> getPropOption q o = getPropOption p o.
Proof.
  induction 1 as [|p c p1 l p2 S1 _ IH|p c e l p2 S1 _ IH]; intros N o I; [reflexivity| |].
  - rewrite IH by (auto; intros; apply N; right; auto). destruct (C98_setters E c p (N c (or_introl eq_refl))) as [A B].
    destruct (asks_dec c) as [[x X]|X]; [|rewrite (B X) in S1; discriminate].
    destruct (A x X) as (p' & S2 & _ & K). rewrite S1 in S2. injection S2 as <-. apply K, computed_other, I.
  - apply IH; auto. intros; apply N; right; auto.
Qed.
(** the extensions in force are never malformed: either still undefined or as asked for *)
Lemma hist_good p l q e : sister_history E p l q -> allowed p = Ok e -> (e = [NOT_DEFINED] \/ Forall extension e) -> exists e', allowed q = Ok e' /\ (e' = [NOT_DEFINED] \/ Forall extension e').
Proof.
  intros H. revert e. induction H as [|p c p1 l p2 S1 _ IH|p c e0 l p2 S1 _ IH]; intros e A G; [eauto| |eauto].
  destruct (asks_dec c) as [[x X]|X].
  - assert (Nc : ~ is_check c) by (destruct c; cbn in *; auto). destruct (C98_setters E c p Nc) as [B _]. destruct (B x X) as (p' & S2 & A2 & _).
    rewrite S1 in S2. injection S2 as <-. apply (IH _ A2). right. destruct c as [o v|o vs|path]; cbn in X; [destruct X as (_ & X & ->); auto|destruct X as (_ & X & ->); auto|destruct X].
  - destruct c as [o v|o vs|path].
    + destruct (C98_setters E (SetOne o v) p (fun x => x)) as [_ B]. rewrite (B X) in S1. discriminate.
    + destruct (C98_setters E (SetMany o vs) p (fun x => x)) as [_ B]. rewrite (B X) in S1. discriminate.
    + apply (IH e); auto. rewrite (check_keeps _ _ _ S1). exact A.
Qed.
Lemma init_allowed : allowed PropertySisterFile = Ok [NOT_DEFINED].
Proof. reflexivity. Qed.
Lemma used_of e : e = [NOT_DEFINED] \/ Forall extension e -> filter (fun x => negb (str_eqb x NOT_DEFINED)) e = if list_eq_dec str_dec e [NOT_DEFINED] then [] else e.
Proof.
  intros [->|H]; [reflexivity|].
  assert (F : filter (fun x => negb (str_eqb x NOT_DEFINED)) e = e).
  { induction H as [|x t X _ IH]; [reflexivity|]. cbn [filter]. destruct (str_eqb_spec x NOT_DEFINED) as [->|]; [destruct (not_defined_bad X)|]. cbn [negb]. rewrite IH. reflexivity. }
  destruct (list_eq_dec str_dec e [NOT_DEFINED]) as [->|Q]; [reflexivity|exact F].
Qed.
End History.

Theorem C98_history_partial : forall E l p, sister_history E PropertySisterFile l p ->
  (forall before c after exts, l = before ++ c :: after -> asks_for c exts -> (forall c' x, In c' after -> ~ asks_for c' x) ->
     getPropOption p $"ALLOWED_SISTER_FILE_EXT" = Ok exts) /\
  (forall before path after dir core ext, l = before ++ CheckPath path :: after -> path_is path dir core ext -> (forall c, In c after -> ~ is_check c) ->
     ((forall c x, In c before -> ~ asks_for c x) -> describes E p dir core []) /\
     (forall b1 c b2 exts, before = b1 ++ c :: b2 -> asks_for c exts -> (forall c' x, In c' b2 -> ~ asks_for c' x) -> describes E p dir core exts)) /\
  ((forall c, In c l -> ~ is_check c) -> forall o, In o computed -> getPropOption p o = getPropOption PropertySisterFile o).
Proof.
  intros E l p H.
  assert (Al : forall l p, sister_history E PropertySisterFile l p -> forall before c after exts, l = before ++ c :: after -> asks_for c exts -> (forall c' x, In c' after -> ~ asks_for c' x) ->
     getPropOption p $"ALLOWED_SISTER_FILE_EXT" = Ok exts).
  { clear. intros l p H before c after exts -> A N. apply hist_app in H as (r & H1 & H2).
    assert (Nc : ~ is_check c) by (destruct c; cbn in *; auto). destruct (C98_setters E c r Nc) as [B _]. destruct (B exts A) as (r' & S1 & G & _).
    inversion H2; subst; rewrite S1 in *; [|discriminate]. match goal with Q : Ok _ = Ok _ |- _ => injection Q as <- end.
    match goal with Q : sister_history E _ after _ |- _ => rewrite (hist_allowed E _ _ _ Q N) end. exact G. }
  split; [exact (Al l p H)|]. split.
  - intros before path after dir core ext -> P N. apply hist_app in H as (r & H1 & H2).
    destruct (hist_good E _ _ _ _ H1 init_allowed (or_introl eq_refl)) as (e & Ge & Good).
    destruct (sister_valid E r e path dir core ext Ge P) as (r' & S1 & _ & _ & E2 & E3 & E4 & E5). rewrite (used_of e Good) in E2, E3, E4, E5.
    inversion H2; subst; cbn [sister_does] in *; rewrite S1 in *; [|discriminate]. match goal with Q : Ok _ = Ok _ |- _ => injection Q as <- end.
    assert (D : describes E p dir core (if list_eq_dec str_dec e [NOT_DEFINED] then [] else e)).
    { unfold describes. match goal with Q : sister_history E _ after _ |- _ => rewrite !(hist_computed E _ _ _ Q N) by (unfold computed; cbn [In]; tauto) end. auto. }
    split.
    + intros Nb. rewrite (hist_allowed E _ _ _ H1 Nb), init_allowed in Ge. injection Ge as <-. exact D.
    + intros b1 c b2 exts -> A Nb. rewrite (Al _ _ H1 _ _ _ _ eq_refl A Nb) in Ge. injection Ge as <-.
      destruct (list_eq_dec str_dec exts [NOT_DEFINED]) as [Q|Q]; [|exact D]. exfalso. subst exts.
      destruct c as [o v|o vs|q]; cbn [asks_for] in A; [destruct A as (_ & A & Q); injection Q as <-|destruct A as (_ & A & <-); apply Forall_inv in A|destruct A]; destruct (not_defined_bad A).
  - intros N. exact (hist_computed E _ _ _ H N).
Qed.
Print Assumptions C98_history_partial.

(** the history theorem is not vacuous: the functions never fail in another way *)
Theorem C98_total : forall E l, exists p, sister_history E PropertySisterFile l p.
Proof.
  intros E l. assert (X : forall p e, getPropOption p $"ALLOWED_SISTER_FILE_EXT" = Ok e -> exists q, sister_history E p l q).
  { induction l as [|c l IH]; intros p e G; [exists p; constructor|].
    destruct (asks_dec c) as [[x X]|X].
    - assert (Nc : ~ is_check c) by (destruct c; cbn in *; auto). destruct (C98_setters E c p Nc) as [A _]. destruct (A x X) as (p' & S1 & G1 & _).
      destruct (IH p' x G1) as (q & Q). exists q. eapply sh_ok; eauto.
    - destruct c as [o v|o vs|path].
      + destruct (C98_setters E (SetOne o v) p (fun x => x)) as [_ B]. destruct (IH p e G) as (q & Q). exists q. eapply sh_caught; eauto.
      + destruct (C98_setters E (SetMany o vs) p (fun x => x)) as [_ B]. destruct (IH p e G) as (q & Q). exists q. eapply sh_caught; eauto.
      + destruct (path_is_exists path) as (d & c0 & x & P). destruct (sister_valid E p e path d c0 x G P) as (p' & S1 & _ & G1 & _).
        destruct (IH p' e G1) as (q & Q). exists q. eapply sh_ok; eauto. }
  exact (X _ _ init_allowed).
Qed.
Print Assumptions C98_total.

(** through an argument object the permission check is bypassed: every computed option of a file argument can be overwritten with anything *)
Theorem C98_argument_refuted : forall E o v, In o computed -> exists a',
  setArgPropertyOpt_vec E $"PROPERTY_SISTER_FILE" o v (ArgumentFile E) = Ok a' /\
  getPropertyValues E a' $"PROPERTY_SISTER_FILE" o = Ok (join v).
Proof.
  intros E o v I. unfold computed in I. cbn [In] in I. destruct I as [<-|[<-|[<-|[<-|[]]]]]; eexists; split; reflexivity.
Qed.
Print Assumptions C98_argument_refuted.

(** the constructors of PropertyFileExt refuse malformed extension rules, setPropOption takes them (whether one string or a set is given),
    and then every path is rejected *)
Theorem C98_extension_refuted : forall e, ~ ext_rule e ->
  PropertyFileExt_str e = Throw InvalidArgument /\
  exists p, ext_setPropOption_str $"ALLOWED_FILE_EXT" e PropertyFileExt = Ok p /\ ext_setPropOption_set $"ALLOWED_FILE_EXT" [e] PropertyFileExt = Ok p /\
  getPropOption p $"ALLOWED_FILE_EXT" = Ok [e] /\ forall path, ext_propValid path p = Throw InvalidArgument.
Proof.
  intros e N. split.
  - unfold PropertyFileExt_str. rewrite (proj2 (checkExt_iff e) N). reflexivity.
  - eexists. split; [reflexivity|]. split; [reflexivity|]. split; [reflexivity|]. intros path.
    destruct (path_is_exists path) as (d & c & x & P). destruct (ext_valid (setPropOption_ $"ALLOWED_FILE_EXT" [e] PropertyFileExt) [e] path d c x) as [_ A]; [reflexivity|exact P|].
    apply A. intros (r & [<-|[]] & [(t & ->)|Q]); [apply N; right; left; eauto|]. subst x. apply N.
    destruct P as (f & _ & _ & _ & _ & [[-> _]|(t & -> & H)]); [left; reflexivity|right; right; eauto].
Qed.
Print Assumptions C98_extension_refuted.
Theorem C98_extension_partial : forall e, ext_rule e -> exists p q, PropertyFileExt_str e = Ok p /\ ext_setPropOption_str $"ALLOWED_FILE_EXT" e PropertyFileExt = Ok q /\
  getPropOption p $"ALLOWED_FILE_EXT" = Ok [e] /\ getPropOption q $"ALLOWED_FILE_EXT" = Ok [e] /\
  forall o var vars, o <> $"ALLOWED_FILE_EXT" -> ext_setPropOption_set o vars PropertyFileExt = Throw InvalidArgument /\ ext_setPropOption_str o var PropertyFileExt = Throw InvalidArgument.
Proof.
  intros e R. eexists. eexists. split; [unfold PropertyFileExt_str; rewrite (proj1 (checkExt_iff e) R); reflexivity|]. split; [reflexivity|]. split; [reflexivity|]. split; [reflexivity|].
  intros o var vars N. unfold ext_setPropOption_set, ext_setPropOption_str, setPropOption, propOptionValid_, m_has, PropertyFileExt, setPropOption_. cbn [p_options m_set m_find].
  destruct (str_eqb_spec o $"ALLOWED_FILE_EXT"); [contradiction|split; reflexivity].
Qed.
Print Assumptions C98_extension_partial.
Theorem C98_supported : forall e p exts, getPropOption p $"ALLOWED_SISTER_FILE_EXT" = Ok exts ->
  (extension e /\ In e exts -> sister_extSupported e p = Ok tt) /\ (~ (extension e /\ In e exts) -> sister_extSupported e p = Throw InvalidArgument).
Proof.
  intros e p exts G. unfold sister_extSupported. destruct (extension_check e) as [[A ->]|[A ->]]; cbn [bind]; [|split; [tauto|reflexivity]]. rewrite G. cbn [bind].
  destruct (existsb (fun x => str_eqb x e) exts) eqn:X.
  - apply existsb_exists in X as (x & I & Q). apply str_eqb_eq in Q as ->. split; [reflexivity|tauto].
  - split; [|reflexivity]. intros [_ I]. exfalso. assert (existsb (fun x => str_eqb x e) exts = true); [|congruence]. apply existsb_exists. exists e. split; [exact I|apply str_eqb_refl].
Qed.
Print Assumptions C98_supported.

(** a switch property accepts exactly the numbers whose text it accepts *)
Theorem C98_switch_numbers : forall v p, is_int v ->
  (v = 0 \/ v = 1 -> switch_propValid_int v p = Ok p /\ switch_propValid (dec v) p = Ok p) /\
  (v <> 0 -> v <> 1 -> switch_propValid_int v p = Throw InvalidArgument /\ switch_propValid (dec v) p = Throw InvalidArgument).
Proof.
  intros v p Iv. split.
  - intros [->| ->]; split; reflexivity.
  - intros N0 N1. split.
    + unfold switch_propValid_int. destruct (Z.ltb_spec v 0); [reflexivity|]. destruct (Z.ltb_spec 1 v); [reflexivity|lia].
    + unfold switch_propValid. destruct (existsb (str_eqb (dec v)) _) eqn:X; [|reflexivity]. exfalso.
      apply existsb_exists in X as (t & I & Q). apply str_eqb_eq in Q. cbn [In] in I.
      pose proof (proj1 (C45_stoi v) Iv) as St. rewrite Q in St. destruct I as [<-|[<-|[<-|[<-|[<-|[<-|[]]]]]]]; vm_compute in St; congruence.
Qed.
Print Assumptions C98_switch_numbers.

Example C98_example : asks_for (SetMany $"ALLOWED_SISTER_FILE_EXT" [$".pun"; $".7"]) [$".pun"; $".7"] /\ ~ ext_rule $"pun" /\
  forall x, ~ asks_for (SetOne $"SISTER_FILE_EXISTS" $"true") x.
Proof.
  split; [|split].
  - split; [reflexivity|]. split; [|reflexivity]. constructor; [|constructor; [|constructor]]; right; eexists; (split; [reflexivity|]); intros H; cbn in H; intuition discriminate.
  - intros [H|[(t & H)|(t & H & _)]]; discriminate H.
  - intros x (H & _). discriminate H.
Qed.
