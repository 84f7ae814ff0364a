(** * Property C75: the help text *)
From Verif Require Export HelpSpec ParserMore.
Open Scope Z_scope.

Section Help.
Context {E : env}.
Implicit Types (P : parser E).

(** ** nothing but the constructor changes the help text *)
Definition same_help P P' : Prop := flags P' = flags P /\ maxFull P' = maxFull P /\ maxShort P' = maxShort P.
Lemma same_refl P : same_help P P. Proof. repeat split. Qed.
Lemma same_trans P Q R : same_help P Q -> same_help Q R -> same_help P R.
Proof. intros (A & B & C) (A' & B' & C'). repeat split; congruence. Qed.
Ltac crush H := repeat match type of H with
  | bind _ _ = Ok _ => let x := fresh in let Hx := fresh in apply bind_ok in H as (x & Hx & H)
  | (if ?b then _ else _) = Ok _ => destruct b
  | match ?b with _ => _ end = Ok _ => destruct b
  | Ok _ = Ok _ => injection H as <-
  | Throw _ = Ok _ => discriminate H
  | Undef _ = Ok _ => discriminate H
  | Exit _ = Ok _ => discriminate H
  | NoFuel = Ok _ => discriminate H
  end; try (repeat split; reflexivity).
Lemma stage_same (f : str) args (s s' : @pstate E) :
  parse_str f args s = Ok s' \/ parse_switch f args s = Ok s' \/ parse_int f args s = Ok s' \/ parse_double f args s = Ok s' \/ parse_file f args s = Ok s' ->
  same_help (snd (fst s)) (snd (fst s')).
Proof.
  destruct s as [[i P] u]. unfold parse_str, parse_switch, parse_int, parse_double, parse_file. cbn [fst snd].
  intros [H|[H|[H|[H|H]]]]; crush H.
Qed.
Lemma parseArg_same i args P r : parseArg_ i args P = Ok r -> same_help P (snd r).
Proof.
  unfold parseArg_. destruct (nth_error args i) as [w|]; [|discriminate]. intros H.
  apply bind_ok in H as (s1 & H1 & H). apply bind_ok in H as (s2 & H2 & H). apply bind_ok in H as (s3 & H3 & H). apply bind_ok in H as (s4 & H4 & H). apply bind_ok in H as (s5 & H5 & H).
  assert (S1 : same_help P (snd (fst s1))) by (exact (stage_same _ _ (i, P, true) s1 (or_introl H1))).
  assert (S2 : same_help (snd (fst s1)) (snd (fst s2))) by (exact (stage_same _ _ s1 s2 (or_intror (or_introl H2)))).
  assert (S3 : same_help (snd (fst s2)) (snd (fst s3))) by (exact (stage_same _ _ s2 s3 (or_intror (or_intror (or_introl H3))))).
  assert (S4 : same_help (snd (fst s3)) (snd (fst s4))) by (exact (stage_same _ _ s3 s4 (or_intror (or_intror (or_intror (or_introl H4)))))).
  assert (S5 : same_help (snd (fst s4)) (snd (fst s5))) by (exact (stage_same _ _ s4 s5 (or_intror (or_intror (or_intror (or_intror H5)))))).
  destruct s5 as [[i5 P5] u5]. destruct u5; [discriminate|]. inversion H; subst. cbn [fst snd] in *. 
  eapply same_trans; [exact S1|]. eapply same_trans; [exact S2|]. eapply same_trans; [exact S3|]. eapply same_trans; [exact S4|exact S5].
Qed.
Lemma loop_same n : forall args i al P P', parse_loop n args i al P = Ok P' -> same_help P P'.
Proof.
  induction n as [|n IH]; intros args i al P P' H; cbn [parse_loop] in H; [discriminate|].
  destruct (nth_error args i) as [w|]; [|inversion H; subst; apply same_refl].
  destruct (is_help w). { destruct (al =? length args)%nat; [discriminate|eauto]. }
  destruct (is_version w); [discriminate|].
  destruct (is_citation w). { destruct (al =? length args)%nat; [discriminate|eauto]. }
  apply bind_ok in H as (r & H1 & H). eapply same_trans; [eapply parseArg_same; eauto|eauto].
Qed.
Lemma built_same P : built E P -> exists fl P0, ArgumentParser E fl = Ok P0 /\ same_help P0 P.
Proof.
  assert (Step : forall P P', (exists fl P0, ArgumentParser E fl = Ok P0 /\ same_help P0 P) -> same_help P P' -> exists fl P0, ArgumentParser E fl = Ok P0 /\ same_help P0 P').
  { intros P1 P2 (fl & P0 & H1 & H2) H3. exists fl, P0. split; auto. eapply same_trans; eauto. }
  induction 1 as [fl P H|f n P P' B IH H|f v P B IH|f v P B IH|f v P B IH|f v P B IH|f n p o v P P' B IH H|f n p o v P P' B IH H|f n p o v P P' B IH H|f n p o v P P' B IH H|f n p o v P P' B IH H|args P P' B IH H|args P P' e B IH H];
    [exists fl, P; split; [auto|apply same_refl]|..]; (eapply Step; [exact IH|]).
  - unfold addFlagArg in H. crush H.
  - repeat split. - repeat split. - repeat split. - repeat split.
  - unfold setFlagArgOpt_int in H. crush H.
  - unfold setFlagArgOpt_dbl in H. crush H.
  - unfold setFlagArgOpt_str in H. crush H.
  - unfold setFlagArgOpt_set in H. crush H.
  - unfold setFlagArgOpt_vec in H. crush H.
  - unfold parse in H. destruct args as [|x [|y t]]; try discriminate. apply bind_ok in H as (P2 & H1 & H). apply bind_ok in H as (u & _ & H). inversion H; subst.
    eapply loop_same; eauto.
  - pose proof (parse_on_steady args P) as (A1 & A2 & A3 & _). rewrite H in A1, A2, A3. repeat split; assumption.
Qed.

(** ** the two maxima *)
Lemma longest_app l x n : longest l n -> longest (l ++ [x]) (Z.max n (len x)).
Proof.
  intros [A B]. split.
  - intros s I. apply in_app_or in I as [I|[<-|[]]]; [specialize (A s I)|]; unfold len in *; lia.
  - right. destruct (Z.le_gt_cases n (len x)).
    + exists x. split; [apply in_or_app; right; left; auto|]. unfold len in *. lia.
    + destruct B as [[-> ->]|(s & I & L)]; [unfold len in *; lia|]. exists s. split; [apply in_or_app; auto|]. lia.
Qed.
Lemma longest_same l l' n : (forall s, In s l <-> In s l') -> longest l n -> longest l' n.
Proof.
  intros H [A B]. split; [intros s I; apply A, H; auto|]. destruct B as [[-> ->]|(s & I & L)].
  - left. split; auto. destruct l' as [|s t]; auto. exfalso. apply (proj2 (H s)). left; auto.
  - right. exists s. split; auto. apply H; auto.
Qed.
Lemma trim_len s : (length (trim s) <= length s)%nat.
Proof. destruct (trim_spec s) as (a & b & _ & _ & H & _). rewrite H at 2. rewrite !app_length. lia. Qed.
Lemma keys_set {V} k (v : V) m x : In x (map fst (m_set k v m)) <-> x = k \/ In x (map fst m).
Proof.
  induction m as [|[k' v'] t IH]; cbn [m_set map fst In]; [intuition|].
  destruct (str_eqb_spec k k') as [->|N]; cbn [map fst In]; [intuition|].
  destruct (str_ltb k k'); cbn [map fst In]; [intuition|]. rewrite IH. intuition.
Qed.
Lemma how_filter q Q x : how_many Q q = 1%nat -> In x q -> Q x = true -> filter Q q = [x].
Proof.
  unfold how_many. intros H I Hq. assert (Ix : In x (filter Q q)) by (apply filter_In; auto). destruct (filter Q q) as [|y [|]]; try discriminate.
  destruct Ix as [->|[]]. auto.
Qed.
Lemma maxima l : forall P P' abb, for_each l read_entry P = Ok P' -> longest (map fst (flags P)) (maxFull P) -> longest abb (maxShort P) ->
  longest (map fst (flags P')) (maxFull P') /\ longest (abb ++ abbreviations l) (maxShort P').
Proof.
  induction l as [|x t IH]; intros P P' abb H L1 L2; cbn [for_each] in H.
  - inversion H; subst. unfold abbreviations. cbn [concat map filter]. rewrite app_nil_r. auto.
  - apply bind_ok in H as (P1 & H1 & H). destruct (read_entry_ok x P) as [G1 G2]. destruct (good_dec x) as [G|G]; [|rewrite G2 in H1 by auto; discriminate].
    destruct (G1 G) as (e & R & Fn & P2 & E2 & F1 & _ & _ & _ & _ & _ & F2 & F3). rewrite H1 in E2. inversion E2; subst P2.
    destruct R as (R1 & R2 & R3 & R4 & R5 & R6).
    assert (A : abbreviations (x :: t) = (if abbreviation e then [short_flag e] else []) ++ abbreviations t).
    { unfold abbreviations. cbn [concat]. rewrite map_app, filter_app. f_equal. destruct (abbreviation e).
      - destruct R5. apply how_filter; auto.
      - unfold how_many in R2. destruct (filter is_short (map trim x)); [auto|discriminate]. }
    rewrite A, app_assoc. apply (IH P1 P'); auto.
    + rewrite F2. eapply longest_same; [|exact (longest_app (map fst (flags P)) (full_flag e) (maxFull P) L1)]. intros s. rewrite F1, keys_set, in_app_iff. cbn [In]. intuition.
    + rewrite F3. destruct (abbreviation e); [apply longest_app; auto|rewrite app_nil_r; auto].
Qed.
Lemma sorted_nodup {V} (m : smap V) : sorted m -> NoDup (map fst m).
Proof.
  induction m as [|[k v] t IH]; cbn [map sorted fst]; intros S; constructor; [|apply IH; tauto].
  destruct S as [S _]. rewrite Forall_forall in S. intros I. apply in_map_iff in I as ([k' v'] & <- & I). specialize (S _ I). cbn [fst] in S. rewrite ltb_irrefl in S. discriminate.
Qed.

(** ** the words of a paragraph *)
Lemma white_blanks n : white (blanks n).
Proof. intros c I. apply repeat_spec in I. subst. vm_compute. auto. Qed.
Lemma weave_gap g l s : white g -> s = weave [] l -> woven [] l -> g ++ s = weave g l /\ woven g l.
Proof. intros W -> H. destruct l as [|[w h] t]; cbn [weave woven] in *; [rewrite app_nil_r; auto|]. tauto. Qed.
Lemma weave_gap2 g h l : white g -> woven h l -> g ++ weave h l = weave (g ++ h) l /\ woven (g ++ h) l.
Proof.
  intros W H. destruct l as [|[w k] t]; cbn [weave woven] in *.
  - split; [auto|]. split; [apply white_app; tauto|auto].
  - rewrite app_assoc. split; [auto|]. destruct H as (H1 & H2 & H3 & H4). split; [apply white_app; auto|auto].
Qed.
Lemma usage_words_weave al sp ws : forall k, Forall word ws ->
  exists g l, render (usage_words al sp ws k) = weave g l /\ woven g l /\ map fst l = ws.
Proof.
  induction ws as [|w t IH]; intros k F; cbn [usage_words].
  - exists [], []. split; [reflexivity|]. split; [split; [apply white_nil|auto]|reflexivity].
  - inversion F as [|? ? Hw Ft]; subst.
    assert (Gen : forall gap r, white gap -> (exists g l, render r = weave g l /\ woven g l /\ map fst l = t) ->
       exists g l, gap ++ (w ++ $" ") ++ render r = weave g l /\ woven g l /\ map fst l = w :: t).
    { intros gap r Wg (g & l & H1 & H2 & H3). exists gap, ((w, $" " ++ g) :: l). cbn [weave woven map fst]. rewrite H1, H3.
      assert (Ws : white $" ") by (intros c [<-|[]]; vm_compute; auto).
      destruct (weave_gap2 $" " g l Ws H2) as [W1 W2]. rewrite <- app_assoc, W1. split; [auto|]. split; [|auto].
      split; [auto|]. split; [auto|]. split; [discriminate|auto]. }
    destruct (_ <? al).
    + destruct (Gen [] (usage_words al sp t (size_t (k + len w + 1))) white_nil (IH _ Ft)) as (g & l & H). exists g, l. exact H.
    + destruct (Gen (newline ++ blanks sp) (usage_words al sp t 0)) as (g & l & H & H2 & H3); [|apply IH; auto|].
      * apply white_app. split; [intros c [<-|[]]; vm_compute; auto|apply white_blanks].
      * exists g, l. split; [|auto]. rewrite <- H. unfold render. cbn [map concat render1]. rewrite <- !app_assoc. reflexivity.
Qed.
Lemma usage_paragraph wf wa it : 0 <= wf < 9223372036854775808 -> 0 <= wa < 9223372036854775808 ->
  len (fst it) <= wf -> len (fst (snd it)) <= wa -> paragraph wf wa it (render (usage_flag wf wa it)).
Proof.
  destruct it as [f [a d]]. cbn [fst snd]. intros B1 B2 L1 L2. pose proof (len_nonneg f). pose proof (len_nonneg a). unfold paragraph, usage_flag. cbn [fst snd].
  destruct (usage_words_weave (size_t (80 - size_t (wf + wa + 2))) (size_t (wf + wa + 2)) (splitSt d) 0 (splitSt_words d)) as (g & l & H1 & H2 & H3).
  set (sp := size_t (wf + wa + 2)) in *. set (al := size_t (80 - sp)) in *.
  rewrite (size_t_small (wf - len f)), (size_t_small (wa - len a)) by (change SIZE_MOD with 18446744073709551616; lia).
  exists (wf - len f + 1), (wa - len a + 1), (render (usage_words al sp (splitSt d) 0)).
  split; [|rewrite H1, splitSt_weave by auto; unfold len in *; rewrite H3; split; [lia|]; split; [lia|]; split; [lia|]; split; [lia|auto]].
  unfold render. cbn [app map concat render1]. rewrite map_app, concat_app. cbn [map concat render1]. rewrite app_nil_r. reflexivity.
Qed.
End Help.

Lemma widths {E} fl (P : parser E) : ArgumentParser E fl = Ok P ->
  longest (map fst (flags P)) (maxFull P) /\ longest (abbreviations (vs_insert help_entry fl)) (maxShort P) /\ longest (abbreviations (help_entry :: fl)) (maxShort P).
Proof.
  intros H. unfold ArgumentParser in H.
  destruct (maxima (vs_insert help_entry fl) (empty_parser E) P [] H) as [M1 M2].
  { split; [intros s []|left; auto]. } { split; [intros s []|left; auto]. }
  cbn [app] in M2.
  assert (M3 : longest (abbreviations (help_entry :: fl)) (maxShort P)).
  { eapply longest_same; [|exact M2]. intros s. unfold abbreviations. rewrite !filter_In, !in_map_iff.
    assert (Q : forall x, In x (concat (vs_insert help_entry fl)) <-> In x (concat (help_entry :: fl))).
    { intros x. rewrite !in_concat. assert (V : forall k l, In k (vs_insert help_entry l) <-> In k (help_entry :: l)).
      { intros k l. induction l as [|h t IH]; cbn [vs_insert]; [tauto|].
        destruct (vec_eqb help_entry h) eqn:Qe.
        - assert (help_entry = h) as <-.
          { clear - Qe. revert h Qe. generalize help_entry. induction l as [|a l IH]; intros [|b m] Q; cbn [vec_eqb] in Q; try discriminate; auto.
            apply andb_true_iff in Q as [Q1 Q2]. apply str_eqb_eq in Q1. f_equal; auto. }
          cbn [In]. intuition.
        - destruct (vec_ltb help_entry h); cbn [In] in *; [intuition|]. rewrite IH. intuition. }
      split; intros (y & I & J); exists y; split; auto; apply V; auto. }
    split; intros [(x & X1 & X2) X3]; (split; [|auto]); exists x; (split; [auto|]); apply Q; auto. }
  auto.
Qed.

Theorem C75_help_partial : forall E fl (P : parser E), ArgumentParser E fl = Ok P -> Forall (Forall storable) fl ->
  (forall f a d, m_find f (flags P) = Some (a, d) -> is_short a = true) ->
  exists wf wa ls, longest (map fst (flags P)) wf /\ longest (abbreviations ([$"--help"; $"-h"; $"Display help message"] :: fl)) wa /\
    NoDup (map fst (flags P)) /\ Forall2 (paragraph wf wa) (flags P) ls /\
    render (showUsage P) = newline ++ newline ++ $"Options:" ++ newline ++ newline ++ concat ls ++ newline.
Proof.
  intros E fl P H St Ab. pose proof (built_wf _ (B_new _ _ H)) as W. destruct (widths fl P H) as (M1 & M2 & M3). unfold ArgumentParser in H.
  exists (maxFull P), (maxShort P), (map (fun it => render (usage_flag (maxFull P) (maxShort P) it)) (flags P)).
  split; [auto|]. split; [exact M3|]. split; [apply sorted_nodup; apply (w_flags _ W)|]. split.
  - assert (Big : forall s, In s (help_entry :: fl) -> Forall storable s).
    { intros s [<-|I]; [|rewrite Forall_forall in St; auto]. unfold help_entry. repeat constructor; vm_compute; reflexivity. }
    assert (Bf : 0 <= maxFull P < 9223372036854775808).
    { destruct M1 as [L1 L2]. destruct L2 as [[_ ->]|(x & Ix & <-)]; [lia|]. apply in_map_iff in Ix as ([f [a d]] & <- & I). cbn [fst].
      apply (find_in _ _ _ (w_flags _ W)) in I.
      assert (X : forall l (Q0 Q1 : parser E), for_each l read_entry Q0 = Ok Q1 -> (forall s, In s l -> Forall storable s) -> (forall k v, m_find k (flags Q0) = Some v -> Z.of_nat (length k) < 9223372036854775808) ->
         forall k v, m_find k (flags Q1) = Some v -> Z.of_nat (length k) < 9223372036854775808).
      { clear. induction l as [|x t IH]; intros Q0 Q1 H Hs H0 k v F; cbn [for_each] in H; [inversion H; subst; eauto|].
        apply bind_ok in H as (Q2 & H1 & H). eapply (IH Q2); eauto; [intros; apply Hs; right; auto|].
        intros k' v' F'. destruct (read_entry_ok x Q0) as [G1 G2]. destruct (good_dec x) as [G|G]; [|rewrite G2 in H1 by auto; discriminate].
        destruct (G1 G) as (e & R & Fn & P2 & E2 & F1 & _). rewrite H1 in E2. inversion E2; subst P2. rewrite F1, find_set in F'.
        destruct (str_dec k' (full_flag e)) as [->|N]; [|eauto]. destruct R as (_ & _ & _ & R4 & _). rewrite Fn in R4. destruct R4 as [R4 _].
        apply in_map_iff in R4 as (z & <- & Iz). specialize (Hs x (or_introl eq_refl)). rewrite Forall_forall in Hs. specialize (Hs z Iz). unfold storable in Hs.
        pose proof (trim_len z). lia. }
      split; [lia|]. eapply (X _ _ _ H); [|intros k v F; discriminate|exact I].
      intros s Is. apply Big. clear - Is. revert Is. generalize help_entry. intros h. induction fl as [|y t IH]; cbn [vs_insert]; [tauto|].
      destruct (vec_eqb h y); [cbn [In]; tauto|]. destruct (vec_ltb h y); cbn [In]; [tauto|]. intros [->|I]; [tauto|]. specialize (IH I). cbn [In] in IH. tauto. }
    assert (Ba : 0 <= maxShort P < 9223372036854775808).
    { destruct M3 as [_ [[_ ->]|(x & Ix & <-)]]; [lia|]. unfold abbreviations in Ix. apply filter_In in Ix as [Ix _]. apply in_map_iff in Ix as (z & <- & Iz).
      apply in_concat in Iz as (y & Iy & Iz). specialize (Big y Iy). rewrite Forall_forall in Big. specialize (Big z Iz). unfold storable in Big. pose proof (trim_len z). lia. }
    assert (In_abb : forall f a d, m_find f (flags P) = Some (a, d) -> len a <= maxShort P).
    { intros f a d F. pose proof (Ab f a d F) as Sh. destruct M2 as [M2 _]. unfold len. apply M2.
      assert (X : forall l (Q0 Q1 : parser E), for_each l read_entry Q0 = Ok Q1 -> forall k v w, m_find k (flags Q1) = Some (v, w) -> is_short v = true ->
         m_find k (flags Q0) = Some (v, w) \/ In v (abbreviations l)).
      { clear. induction l as [|x t IH]; intros Q0 Q1 H k v w F Sh; cbn [for_each] in H; [inversion H; subst; auto|].
        apply bind_ok in H as (Q2 & H1 & H). destruct (IH _ _ H _ _ _ F Sh) as [F'|I].
        2:{ right. unfold abbreviations in *. cbn [concat]. rewrite map_app, filter_app. apply in_or_app; auto. }
        destruct (read_entry_ok x Q0) as [G1 G2]. destruct (good_dec x) as [G|G]; [|rewrite G2 in H1 by auto; discriminate].
        destruct (G1 G) as (e & R & Fn & P2 & E2 & F1 & _). rewrite H1 in E2. inversion E2; subst P2. rewrite F1, find_set in F'.
        destruct (str_dec k (full_flag e)) as [->|N]; [|auto]. right. destruct R as (R1 & R2 & R3 & R4 & R5 & R6).
        inversion F'; subst. unfold abbreviations. cbn [concat]. rewrite map_app, filter_app. apply in_or_app; left. apply filter_In. split; [|auto].
        destruct (abbreviation e); [tauto|]. exfalso. rewrite R5 in Sh. vm_compute in Sh. discriminate. }
      destruct (X _ _ _ H f a d F Sh) as [F'|I]; [discriminate F'|exact I]. }
    assert (G : forall l, (forall it, In it l -> In it (flags P)) -> Forall2 (paragraph (maxFull P) (maxShort P)) l (map (fun it => render (usage_flag (maxFull P) (maxShort P) it)) l)).
    { induction l as [|[f [a d]] t IH]; intros Hl; cbn [map]; constructor; [|apply IH; intros; apply Hl; right; auto].
      apply usage_paragraph; auto; cbn [fst snd].
      - destruct M1 as [M1 _]. unfold len. apply M1. apply in_map_iff. exists (f, (a, d)). split; auto. apply Hl. left; auto.
      - apply (In_abb f a d). apply (find_in _ _ _ (w_flags _ W)). apply Hl. left; auto. }
    apply G. auto.
  - unfold showUsage, render. cbn [app map concat render1]. rewrite map_app, concat_app. cbn [map concat render1 app]. rewrite !app_nil_r.
    do 2 f_equal. f_equal. f_equal. f_equal. f_equal.
    generalize (flags P) at 1 2. intros l. induction l as [|it t IH]; [reflexivity|]. cbn [map concat]. rewrite map_app, concat_app, IH. reflexivity.
Qed.
Print Assumptions C75_help_partial.

(** setting options, default values, and parsing do not change the help text *)
Theorem C75_stable : forall E (P : parser E), built E P -> exists fl P0, ArgumentParser E fl = Ok P0 /\ showUsage P = showUsage P0 /\ flags P = flags P0.
Proof.
  intros E P B. destruct (built_same P B) as (fl & P0 & H & S1 & S2 & S3). exists fl, P0. split; [auto|]. split; [|auto].
  unfold showUsage. rewrite S1, S2, S3. reflexivity.
Qed.
Print Assumptions C75_stable.

(** the flags are listed in dictionary order, whatever the order of registration *)
Lemma ltb_dictionary f : forall g, str_ltb f g = true <-> dictionary f g.
Proof.
  induction f as [|x f IH]; intros [|y g]; split; intros H.
  - discriminate H.
  - destruct H as (p & r & s & A & B & C). destruct p; [|discriminate A]. cbn [app] in A, B. subst r s. destruct C.
  - exists [], [], (y :: g). repeat split.
  - reflexivity.
  - discriminate H.
  - destruct H as (p & r & s & A & B & C). destruct p; [|discriminate B]. cbn [app] in A, B. subst r s. destruct C.
  - apply ltb_cons in H as [H|[-> H]].
    + exists [], (x :: f), (y :: g). repeat split; auto.
    + apply IH in H as (p & r & s & -> & -> & C). exists (y :: p), r, s. repeat split; auto.
  - apply ltb_cons. destruct H as (p & r & s & A & B & C). destruct p as [|z p]; cbn [app] in A, B.
    + subst r s. left. exact C.
    + injection A as -> A. injection B as -> B. right. split; [reflexivity|]. apply IH. exists p, r, s. auto.
Qed.
Theorem C75_order : forall E (P : parser E), built E P -> forall l1 f x l2 g y l3, flags P = l1 ++ (f, x) :: l2 ++ (g, y) :: l3 -> dictionary f g.
Proof.
  intros E P B l1 f x l2 g y l3 H. pose proof (w_flags _ (built_wf _ B)) as S0. rewrite H in S0. clear -S0. apply ltb_dictionary.
  induction l1 as [|h l1 IH]; cbn [app sorted] in S0; destruct S0 as [S1 S2]; [|exact (IH S2)].
  rewrite Forall_forall in S1. apply (S1 (g, y)), in_or_app. right. left. reflexivity.
Qed.
Print Assumptions C75_order.

(** If a flag has no abbreviation (and no abbreviation has 23 or more characters) at least 2^63 blanks are printed. *)
Lemma render_app l m : render (l ++ m) = render l ++ render m.
Proof. unfold render. rewrite map_app, concat_app. reflexivity. Qed.
Lemma render_in p l : In p l -> (length (render1 p) <= length (render l))%nat.
Proof.
  induction l as [|q t IH]; [intros []|]. intros [->|I]; unfold render in *; cbn [map concat]; rewrite app_length; [lia|]. specialize (IH I). lia.
Qed.
Theorem C75_no_abbreviation_refuted : forall E fl (P : parser E), ArgumentParser E fl = Ok P ->
  (forall s, In s (abbreviations ([$"--help"; $"-h"; $"Display help message"] :: fl)) -> Z.of_nat (length s) < 23) ->
  forall f d, m_find f (flags P) = Some ($"NO_SHORT_FLAG_SPECIFIED", d) ->
  2 ^ 63 <= Z.of_nat (length (render (showUsage P))).
Proof.
  intros E fl P H Hs f d F. pose proof (built_wf _ (B_new _ _ H)) as W. destruct (widths fl P H) as (_ & _ & M).
  assert (B : 0 <= maxShort P < 23). { destruct M as [_ [[_ ->]|(x & Ix & <-)]]; [lia|]. specialize (Hs x Ix). lia. }
  apply (find_in _ _ _ (w_flags _ W)) in F.
  assert (I : In (Blanks (size_t (maxShort P - 23) + 1)) (showUsage P)).
  { unfold showUsage. apply in_or_app; right. apply in_or_app; left. apply in_concat. eexists. split; [apply in_map; exact F|].
    unfold usage_flag. apply in_or_app; left. right; right; right; left. reflexivity. }
  apply render_in in I. assert (Q : size_t (maxShort P - 23) = maxShort P - 23 + 18446744073709551616).
  { unfold size_t. change SIZE_MOD with 18446744073709551616. symmetry. apply (Z.mod_unique _ _ (-1)); lia. }
  rewrite Q in I. unfold render1, blanks in I. rewrite repeat_length in I. change (2 ^ 63) with 9223372036854775808. lia.
Qed.
Print Assumptions C75_no_abbreviation_refuted.

Definition flags_of {E} (o : outcome (parser E)) : smap (str * str) := match o with Ok P => flags P | _ => [] end.
Definition plain_flag : list (list str) := [[$"--size"; $"Length of the box"]].
Definition is_plain {E} (o : outcome (parser E)) : bool :=
  match o with Ok P => match m_find $"--size" (flags P) with Some (a, _) => str_eqb a $"NO_SHORT_FLAG_SPECIFIED" | _ => false end | _ => false end.
Example C75_example : forall E,
  (* CATNIP's own flags all have an abbreviation *)
  (exists fl P0, ArgumentParser E fl = Ok P0 /\ Forall (Forall storable) fl /\ flags (catnip E) = flags P0 /\ forall f a d, m_find f (flags P0) = Some (a, d) -> is_short a = true) /\
  (* a flag without one *)
  (is_plain (ArgumentParser E plain_flag) = true /\ forall s, In s (abbreviations ([$"--help"; $"-h"; $"Display help message"] :: plain_flag)) -> Z.of_nat (length s) < 23).
Proof.
  intros E. split; [|split; [vm_compute; reflexivity|]].
  - exists (fold_left (fun s k => vs_insert k s) catnip_flags []).
    destruct (ArgumentParser E (fold_left (fun s k => vs_insert k s) catnip_flags [])) as [P0| | | |] eqn:H0;
      try (exfalso; assert (X : is_ok (ArgumentParser E (fold_left (fun s k => vs_insert k s) catnip_flags [])) = true) by (vm_compute; reflexivity); rewrite H0 in X; discriminate X).
    exists P0. split; [auto|]. split.
    + apply Forall_forall. intros x Ix. apply Forall_forall. intros y Iy.
      assert (X : forallb (fun x => forallb (fun y => Z.of_nat (length y) <? 9223372036854775808) x) (fold_left (fun s k => vs_insert k s) catnip_flags []) = true) by (vm_compute; reflexivity).
      rewrite forallb_forall in X. specialize (X x Ix). rewrite forallb_forall in X. specialize (X y Iy). apply Z.ltb_lt in X. exact X.
    + assert (Fe : flags_of (prepareParser E) = flags_of (ArgumentParser E (fold_left (fun s k => vs_insert k s) catnip_flags []))) by (vm_compute; reflexivity).
      assert (Fs : forallb (fun it => is_short (fst (snd it))) (flags_of (ArgumentParser E (fold_left (fun s k => vs_insert k s) catnip_flags []))) = true) by (vm_compute; reflexivity).
      rewrite H0 in Fe, Fs. rewrite catnip_ok in Fe. cbn [flags_of] in Fe, Fs. split; [exact Fe|].
      intros f a d F. rewrite forallb_forall in Fs. apply (Fs (f, (a, d))).
      apply (find_in _ _ _ (w_flags _ (built_wf _ (B_new _ _ H0)))). exact F.
  - intros s I. vm_compute in I. destruct I as [<-|[]]. vm_compute. reflexivity.
Qed.
