(** * C53: flags that were given no value *)
From Verif Require Import ParserProps.
From Verif Require Export StrSpec StrModel.

(** the parser was assembled and used by calls none of which gave a value to the flag [f] *)
Inductive silent {E} (f : str) : parser E -> Prop :=
| S_new fl P : ArgumentParser E fl = Ok P -> silent f P
| S_add g n P P' : silent f P -> addFlagArg g n P = Ok P' -> silent f P'
| S_def_int g v P : silent f P -> g <> f -> silent f (setFlagDefaultValue_int g v P)
| S_def_size g v P : silent f P -> g <> f -> silent f (setFlagDefaultValue_size g v P)
| S_def_dbl g v P : silent f P -> g <> f -> silent f (setFlagDefaultValue_dbl g v P)
| S_def_str g v P : silent f P -> g <> f -> silent f (setFlagDefaultValue_str g v P)
| S_int g n p o v P P' : silent f P -> setFlagArgOpt_int g n p o v P = Ok P' -> silent f P'
| S_dbl g n p o v P P' : silent f P -> setFlagArgOpt_dbl g n p o v P = Ok P' -> silent f P'
| S_str g n p o v P P' : silent f P -> setFlagArgOpt_str g n p o v P = Ok P' -> silent f P'
| S_set g n p o v P P' : silent f P -> setFlagArgOpt_set g n p o v P = Ok P' -> silent f P'
| S_vec g n p o v P P' : silent f P -> setFlagArgOpt_vec g n p o v P = Ok P' -> silent f P'
| S_parse prog l P P' : silent f P -> regular P -> valid P l -> ~ all_notes (words l) -> not_given f l -> parse (prog :: words l) P = Ok P' -> silent f P'.

Definition unset {E} (f : str) (P : parser E) : Prop :=
  m_find f (string_values P) = None /\ m_find f (int_values P) = None /\ m_find f (double_values P) = None /\ m_find f (size_t_values P) = None.
Lemma same_unset {E} f (P P' : parser E) : string_values P' = string_values P -> int_values P' = int_values P -> double_values P' = double_values P -> size_t_values P' = size_t_values P -> unset f P -> unset f P'.
Proof. unfold unset. intros -> -> -> ->. auto. Qed.
Ltac opens H := repeat match type of H with
  | (if ?b then _ else _) = _ => destruct b
  | bind _ _ = _ => let m := fresh "m" in let X := fresh "X" in apply bind_ok in H as (m & X & H) end; try discriminate; injection H as <-.
Lemma each_keeps {B X} (I : X -> Prop) (body : B -> X -> outcome X) l : (forall b, In b l -> forall s s', I s -> body b s = Ok s' -> I s') ->
  forall s s', I s -> for_each l body s = Ok s' -> I s'.
Proof.
  induction l as [|b l IH]; intros Hb s s' Hs H; cbn [for_each] in H; [injection H as <-; exact Hs|]. apply bind_ok in H as (s1 & E1 & H).
  apply (IH (fun b' J => Hb b' (or_intror J)) s1 s'); [|exact H]. exact (Hb b (or_introl eq_refl) _ _ Hs E1).
Qed.
Lemma silent_unset {E} f (P : parser E) : silent f P -> unset f P.
Proof.
  induction 1 as [fl P H|g n P P' S IH H|g v P S IH Ng|g v P S IH Ng|g v P S IH Ng|g v P S IH Ng|g n p o v P P' S IH H|g n p o v P P' S IH H|g n p o v P P' S IH H|g n p o v P P' S IH H|g n p o v P P' S IH H|prog l P P' S IH R V N G H].
  - unfold ArgumentParser in H. eapply (each_keeps (unset f)) in H; [exact H| |repeat split; reflexivity].
    intros b _ s s' Hs X. unfold read_entry in X. opens X. exact Hs.
  - unfold addFlagArg in H. opens H; (eapply same_unset; [..|exact IH]; reflexivity).
  - destruct IH as (A & B & C & D). repeat split; auto. cbn. rewrite find_set. destruct (str_dec f g); congruence.
  - destruct IH as (A & B & C & D). repeat split; auto. cbn. rewrite find_set. destruct (str_dec f g); congruence.
  - destruct IH as (A & B & C & D). repeat split; auto. cbn. rewrite find_set. destruct (str_dec f g); congruence.
  - destruct IH as (A & B & C & D). repeat split; auto. cbn. rewrite find_set. destruct (str_dec f g); congruence.
  - unfold setFlagArgOpt_int in H. opens H; (eapply same_unset; [..|exact IH]; reflexivity).
  - unfold setFlagArgOpt_dbl in H. opens H; (eapply same_unset; [..|exact IH]; reflexivity).
  - unfold setFlagArgOpt_str in H. opens H; (eapply same_unset; [..|exact IH]; reflexivity).
  - unfold setFlagArgOpt_set in H. opens H; (eapply same_unset; [..|exact IH]; reflexivity).
  - unfold setFlagArgOpt_vec in H. opens H; (eapply same_unset; [..|exact IH]; reflexivity).
  - destruct (parse_valid P prog l (regular_reg _ R) V N) as (P2 & Rn & _ & W & Pe). rewrite Pe in H.
    assert (P2 = P') by (destruct (post_iff P2 W) as [[Hp _]|[Hp _]]; rewrite Hp in H; cbn [bind] in H; congruence). subst P2.
    destruct (run_same _ _ _ f Rn G) as (A & B & C & D). destruct (run_sizes _ _ _ Rn) as (A' & _). unfold unset. rewrite A, B, C, A'. exact IH.
Qed.

(** a flag without a value: every getter throws invalid_argument *)
Theorem C53_unset : forall E f (P : parser E), silent f P ->
  getStr P f = Throw InvalidArgument /\ getInt P f = Throw InvalidArgument /\ getDouble P f = Throw InvalidArgument /\ getSize_t P f = Throw InvalidArgument.
Proof.
  intros E f P H. apply silent_unset in H as (A & B & C & D). unfold getStr, getInt, getDouble, getSize_t. rewrite A, B, C, D.
  destruct (m_find f (switch_arg P)); auto.
Qed.
Print Assumptions C53_unset.

(** CATNIP's parser gives no value to the file flags *)
Theorem C53_unset_files : forall E P f, prepareParser E = Ok P -> In f [$"--pun_P"; $"--pun_1"; $"--pun_2"; $"--log_P"; $"--log_1"; $"--log_2"] -> silent f P.
Proof.
  intros E P f. unfold prepareParser. intros H If.
  assert (Nf : forall g, In g [$"--spin_P"; $"--spin_1"; $"--spin_2"; $"--orbital_type_1"; $"--orbital_type_2"; $"--counter_poise"; $"--citation"; $"--version"; $"--orbital_num_1"; $"--orbital_num_2"] -> g <> f).
  { intros g Ig ->. revert Ig. repeat (destruct If as [<-|If]; [vm_compute; intuition discriminate|]). destruct If. }
  apply bind_ok in H as (P0 & E0 & H). assert (S0 : silent f P0) by (eapply S_new; exact E0).
  apply bind_ok in H as (P1 & E1 & H). assert (S1 : silent f P1).
  { eapply (each_keeps (silent f)) in E1; [exact E1| |exact S0]. intros g _ s s' Hs X. unfold pun_rules in X.
    apply bind_ok in X as (a & X1 & X). apply bind_ok in X as (b & X2 & X). eapply S_int; [|exact X]. eapply S_str; [|exact X2]. eapply S_set; [|exact X1]. exact Hs. }
  apply bind_ok in H as (P2 & E2 & H). assert (S2 : silent f P2).
  { eapply (each_keeps (silent f)) in E2; [exact E2| |exact S1]. intros g _ s s' Hs X. unfold log_rules in X.
    apply bind_ok in X as (a & X1 & X). apply bind_ok in X as (b & X2 & X). eapply S_int; [|exact X]. eapply S_vec; [|exact X2]. eapply S_set; [|exact X1]. exact Hs. }
  assert (Ch : forall cs g s s', silent f s -> choice_rules (E := E) cs g s = Ok s' -> silent f s').
  { intros cs g s s' Hs X. unfold choice_rules in X. apply bind_ok in X as (a & X1 & X). eapply S_set; [|exact X]. eapply S_str; [|exact X1]. exact Hs. }
  apply bind_ok in H as (P3 & E3 & H). assert (S3 : silent f P3) by (eapply (each_keeps (silent f)) in E3; [exact E3|intros g _; apply Ch|exact S2]).
  apply bind_ok in H as (P4 & E4 & H). assert (S4 : silent f P4).
  { eapply (each_keeps (silent f)) in E4; [exact E4|intros g _; apply Ch|]. repeat (apply S_def_str; [|apply Nf; cbn [In]; auto 20]). exact S3. }
  apply bind_ok in H as (P5 & E5 & H). assert (S5 : silent f P5).
  { eapply (each_keeps (silent f)) in E5; [exact E5| |].
    - intros g Ig s s' Hs X. unfold switch_rules in X. apply bind_ok in X as (a & X1 & X). apply Ok_inj in X. rewrite <- X. clear X. apply S_def_str; [eapply S_str; [|exact X1]; exact Hs|]. apply Nf. clear - Ig. cbn [In] in *. destruct Ig as [Ig|[Ig|[Ig|[]]]]; auto 20.
    - repeat (apply S_def_str; [|apply Nf; cbn [In]; auto 20]). exact S4. }
  apply bind_ok in H as (P6 & E6 & H). apply bind_ok in H as (P7 & E7 & H). apply Ok_inj in H. rewrite <- H. clear H.
  repeat (apply S_def_int; [|apply Nf; cbn [In]; auto 20]). eapply S_add; [|exact E7]. eapply S_add; [|exact E6]. exact S5.
Qed.
Print Assumptions C53_unset_files.
Example C53_unset_example : forall P, prepareParser world = Ok P -> getStr P $"--log_2" = Throw InvalidArgument.
Proof. intros P H. apply (C53_unset world $"--log_2" P). apply (C53_unset_files world P _ H). cbn [In]. auto 10. Qed.
