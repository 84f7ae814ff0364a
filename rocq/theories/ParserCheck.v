(** * Deciding regularity, and CATNIP's own parser *)
From Verif Require Export ParserEffect.
Open Scope Z_scope.

Section Check.
Context {E : env}.
Implicit Types (P : parser E).
Definition pairs P : list (str * str) := concat (map (fun it => (fst it, fst it) ::
   if str_eqb (fst (snd it)) no_abbreviation && negb (str_eqb (by_abbreviation no_abbreviation (flags P)) (fst it)) then [] else [(fst (snd it), fst it)]) (flags P)).
Definition keys P (k : fkind) : list str := map fst (args_of P k).
Definition kinds := [KStr; KSwitch; KInt; KDouble; KFile].
Definition same_kind (a b : fkind) : bool :=
  match a, b with KStr, KStr | KSwitch, KSwitch | KInt, KInt | KDouble, KDouble | KFile, KFile => true | _, _ => false end.
Definition regularb P : bool :=
  forallb (fun p => forallb (fun q => negb (str_eqb (fst p) (fst q)) || str_eqb (snd p) (snd q)) (pairs P)) (pairs P) &&
  forallb (fun k => forallb (fun k' => same_kind k k' || forallb (fun f => negb (existsb (str_eqb f) (keys P k'))) (keys P k)) kinds) kinds &&
  forallb (fun k => forallb (fun f => existsb (str_eqb f) (map fst (flags P))) (keys P k)) kinds.
Lemma in_kinds k : In k kinds. Proof. destruct k; cbn; auto 10. Qed.
Lemma first_abbr P f d : wf P -> m_find f (flags P) = Some (no_abbreviation, d) ->
  (first_with P no_abbreviation f <-> by_abbreviation no_abbreviation (flags P) = f).
Proof.
  intros W F. assert (Rf : registered P f no_abbreviation) by (exists d; auto).
  destruct (by_abbr_in no_abbreviation (flags P) (w_flags _ W)) as [(g & d' & I & Eq & M)|[_ N]].
  2:{ exfalso. apply find_in in F; [|apply (w_flags _ W)]. eapply N; eauto. }
  assert (Fg : first_with P no_abbreviation g) by (intros f' (d2 & F2); apply find_in in F2; [eapply M; eauto|apply (w_flags _ W)]).
  assert (Rg : registered P g no_abbreviation) by (exists d'; apply find_in; [apply (w_flags _ W)|auto]).
  rewrite Eq. split; [intros Ff; exact (first_one _ _ _ _ Fg Ff Rg Rf)|intros ->; exact Fg].
Qed.
Lemma stands_pairs P w f : wf P -> (stands_for P w f <-> In (w, f) (pairs P)).
Proof.
  intros W. unfold stands_for, registered, pairs. rewrite in_concat. split.
  - intros (a & (d & F) & H). pose proof F as I. apply find_in in I; [|apply W].
    eexists. split; [apply in_map_iff; exists (f, (a, d)); split; [reflexivity|exact I]|]. cbn [fst snd].
    destruct H as [->|[-> H]]; [left; auto|right]. destruct (str_eqb_spec a no_abbreviation) as [->|N]; [|left; auto].
    rewrite (proj1 (first_abbr P f d W F)) by auto. rewrite str_eqb_refl. left. auto.
  - intros (l & I & H). apply in_map_iff in I as ([g [a d]] & <- & I). cbn [fst snd] in H. apply find_in in I; [|apply W].
    destruct H as [H|H]; [injection H as <- <-; exists a; split; eauto|].
    destruct (str_eqb_spec a no_abbreviation) as [->|N]; cbn [andb] in H.
    + destruct (str_eqb_spec (by_abbreviation no_abbreviation (flags P)) g) as [Q|Q]; cbn [negb] in H; [destruct H as [H|[]]|destruct H].
      injection H as <- <-. exists no_abbreviation. split; [eauto|]. right. split; [auto|]. intros _. apply (first_abbr P g d W I), Q.
    + destruct H as [H|[]]. injection H as <- <-. exists a. split; [eauto|]. right. split; [auto|]. intros C; contradiction.
Qed.
Lemma has_keys P f k : wf P -> (has_kind P f k <-> In f (keys P k)).
Proof.
  intros W. unfold has_kind, keys. rewrite in_map_iff.
  assert (S : sorted (args_of P k)) by (destruct k; apply W). split.
  - intros (a & F). apply find_in in F; auto. exists (f, a). auto.
  - intros ([g a] & <- & I). exists a. apply find_in; auto.
Qed.
Lemma regularb_ok P : built E P -> regularb P = true -> regular P.
Proof.
  intros B H. pose proof (built_wf _ B) as W. unfold regularb in H. apply andb_true_iff in H as [H H3]. apply andb_true_iff in H as [H1 H2].
  rewrite forallb_forall in H1, H2, H3. constructor; auto.
  - intros w f f' S1 S2. apply stands_pairs in S1; auto. apply stands_pairs in S2; auto.
    specialize (H1 _ S1). rewrite forallb_forall in H1. specialize (H1 _ S2). cbn [fst snd] in H1. rewrite str_eqb_refl in H1. now apply str_eqb_eq in H1.
  - intros f k k' K1 K2. apply has_keys in K1; auto. apply has_keys in K2; auto.
    specialize (H2 k (in_kinds k)). rewrite forallb_forall in H2. specialize (H2 k' (in_kinds k')). apply orb_true_iff in H2 as [H2|H2].
    + destruct k, k'; auto; discriminate.
    + rewrite forallb_forall in H2. specialize (H2 f K1). apply negb_true_iff in H2. apply existsb_str_false in H2. contradiction.
  - intros f k K. apply has_keys in K; auto. specialize (H3 k (in_kinds k)). rewrite forallb_forall in H3. specialize (H3 f K).
    apply existsb_str in H3. apply in_map_iff in H3 as ([g [a d]] & <- & I). exists a, d. apply find_in in I; auto. apply W.
Qed.
(** the same for command lines *)
Definition admissibleb P (f w : str) : bool :=
  existsb (fun k => match m_find f (args_of P k) with
    | None => false
    | Some a =>
      match k with
      | KStr | KFile => is_ok (argValid_str E w a)
      | KInt => match stoi w with Ok v => is_ok (argValid_int E v a) | _ => false end
      | KDouble => match e_stod E w with Ok v => is_ok (argValid_dbl E v a) | _ => false end
      | KSwitch => false
      end
    end) kinds.
Definition standsb P (x f : str) : bool := existsb (fun p => str_eqb (fst p) x && str_eqb (snd p) f) (pairs P).
Definition infob (x : str) : bool := is_help x || is_citation x || is_version x.
Fixpoint validb P (l : list item) : bool :=
  match l with
  | [] => true
  | IVal x f w :: t => negb (infob x) && standsb P x f && admissibleb P f w && validb P t
  | ISw x f :: t => negb (infob x) && standsb P x f && existsb (str_eqb f) (keys P KSwitch) &&
      match words t with [] => true | y :: _ => is_a_flag P y end && validb P t
  | INote x :: t => (is_help x || is_citation x) && validb P t
  end.
Lemma admissibleb_ok P f w : admissibleb P f w = true -> admissible P f w.
Proof.
  unfold admissibleb. rewrite existsb_exists. intros (k & _ & H). destruct (m_find f (args_of P k)) as [a|] eqn:F; [|discriminate].
  exists k, a. split; auto. destruct k; try discriminate.
  - apply is_ok_iff; auto.
  - destruct (stoi w) as [v| | | |]; try discriminate. apply is_ok_iff in H as (b & H). exists v, b. auto.
  - destruct (e_stod E w) as [v| | | |]; try discriminate. apply is_ok_iff in H as (b & H). exists v, b. auto.
  - apply is_ok_iff; auto.
Qed.
Lemma admissibleb_no P f w : admissibleb P f w = false -> ~ admissible P f w.
Proof.
  intros H (k & a & F & A). assert (C : admissibleb P f w = true); [|congruence]. unfold admissibleb. apply existsb_exists. exists k. split; [apply in_kinds|].
  rewrite F. destruct k; try contradiction.
  - destruct A as (b & ->). auto.
  - destruct A as (v & b & -> & ->). auto.
  - destruct A as (v & b & -> & ->). auto.
  - destruct A as (b & ->). auto.
Qed.
Definition throws {A} (e : exn) (o : outcome A) : bool :=
  match o, e with
  | Throw OutOfRange, OutOfRange | Throw InvalidArgument, InvalidArgument | Throw RuntimeError, RuntimeError => true
  | _, _ => false
  end.
Lemma throws_ok {A} e (o : outcome A) : throws e o = true -> o = Throw e.
Proof. destruct o as [|x| | |]; try discriminate. destruct x, e; try discriminate; auto. Qed.
Lemma standsb_ok P x f : wf P -> standsb P x f = true -> stands_for P x f.
Proof.
  intros W. unfold standsb. rewrite existsb_exists. intros ([w g] & I & H). apply andb_true_iff in H as [H1 H2].
  apply str_eqb_eq in H1, H2. cbn [fst snd] in *. subst. apply stands_pairs; auto.
Qed.
Lemma infob_ok x : infob x = false -> ~ informational x.
Proof.
  unfold infob. intros H [N|N]; [apply (proj1 (informational_eq x)) in N|apply (proj2 (informational_eq x)) in N]; rewrite N in H; [discriminate|].
  rewrite orb_true_r in H. discriminate.
Qed.
Lemma validb_ok P l : wf P -> validb P l = true -> valid P l.
Proof.
  intros W. induction l as [|[x f w|x f|x] t IH]; cbn [validb valid]; intros H; auto.
  - apply andb_true_iff in H as [H H4]. apply andb_true_iff in H as [H H3]. apply andb_true_iff in H as [H1 H2]. apply negb_true_iff in H1.
    split; [apply infob_ok; auto|]. split; [apply standsb_ok; auto|]. split; [apply admissibleb_ok; auto|auto].
  - apply andb_true_iff in H as [H H5]. apply andb_true_iff in H as [H H4]. apply andb_true_iff in H as [H H3]. apply andb_true_iff in H as [H1 H2]. apply negb_true_iff in H1.
    split; [apply infob_ok; auto|]. split; [apply standsb_ok; auto|]. split; [apply has_keys; auto; apply existsb_str; auto|]. split; [|auto].
    intros y r E1. rewrite E1 in H4. apply is_a_flag_iff; auto.
  - apply andb_true_iff in H as [H1 H2]. split; [|auto]. apply (proj1 (informational_eq x)). auto.
Qed.
End Check.

(** ** the parser of CATNIP *)
Definition catnip (E : env) : parser E := match prepareParser E with Ok P => P | _ => empty_parser E end.
Section Built.
Context {E : env}.
Lemma built_each {A} (l : list A) (b : A -> parser E -> outcome (parser E)) P P' :
  (forall x Q Q', built E Q -> b x Q = Ok Q' -> built E Q') -> built E P -> for_each l b P = Ok P' -> built E P'.
Proof.
  intros H. revert P. induction l as [|x t IH]; intros P B F; cbn [for_each] in F; [inversion F; subst; auto|].
  apply bind_ok in F as (Q & Fx & F). eapply IH; [|exact F]. eapply H; eauto.
Qed.
Ltac step B := apply bind_ok in B as (? & ?H & B).
Lemma built_prepare P : prepareParser E = Ok P -> built E P.
Proof.
  unfold prepareParser. intros H. apply bind_ok in H as (P0 & H0 & H). apply B_new in H0.
  apply bind_ok in H as (P1 & H1 & H). apply built_each in H1; auto.
  2: { intros x Q Q' BQ H2. unfold pun_rules in H2. apply bind_ok in H2 as (Q1 & E1 & H2). apply bind_ok in H2 as (Q2 & E2 & H2).
       eapply B_int; [|exact H2]. eapply B_str; [|exact E2]. eapply B_set; [|exact E1]. auto. }
  apply bind_ok in H as (P2 & H2 & H). apply built_each in H2; auto.
  2: { intros x Q Q' BQ H3. unfold log_rules in H3. apply bind_ok in H3 as (Q1 & E1 & H3). apply bind_ok in H3 as (Q2 & E2 & H3).
       eapply B_int; [|exact H3]. eapply B_vec; [|exact E2]. eapply B_set; [|exact E1]. auto. }
  assert (Ch : forall c x Q Q', built E Q -> choice_rules c x Q = Ok Q' -> built E Q').
  { intros c x Q Q' BQ Hc. unfold choice_rules in Hc. apply bind_ok in Hc as (Q1 & E1 & Hc). eapply B_set; [|exact Hc]. eapply B_str; [|exact E1]. auto. }
  apply bind_ok in H as (P3 & H3 & H). apply built_each in H3; [|apply Ch|auto].
  apply bind_ok in H as (P4 & H4 & H). apply built_each in H4; [|apply Ch|repeat apply B_def_str; auto].
  apply bind_ok in H as (P5 & H5 & H). apply built_each in H5.
  2: { intros x Q Q' BQ Hc. unfold switch_rules in Hc. apply bind_ok in Hc as (Q1 & E1 & Hc). inversion Hc; subst. apply B_def_str. eapply B_str; [|exact E1]. auto. }
  2: { repeat apply B_def_str; auto. }
  apply bind_ok in H as (P6 & H6 & H). apply bind_ok in H as (P7 & H7 & H). inversion H; subst.
  apply B_def_int, B_def_int. eapply B_add; [|exact H7]. eapply B_add; [|exact H6]. auto.
Qed.
Lemma catnip_ok : prepareParser E = Ok (catnip E).
Proof. unfold catnip. assert (Ok' : is_ok (prepareParser E) = true) by (vm_compute; reflexivity). destruct (prepareParser E); try discriminate. reflexivity. Qed.
Lemma catnip_regular : regular (catnip E).
Proof. apply regularb_ok; [apply built_prepare, catnip_ok|vm_compute; reflexivity]. Qed.
Lemma catnip_wf : wf (catnip E).
Proof. apply built_wf, built_prepare, catnip_ok. Qed.
End Built.
