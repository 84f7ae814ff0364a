(** * Beginnings of lines: their words and their energies *)
From Verif Require Import ParserWf.
From Verif Require Export ReaderTrunc ReaderFuel ReaderProps.
From Verif Require Export StrSpec StrModel.
Open Scope Z_scope.

(** [ws'] are the words of a beginning of a line with the words [ws] *)
Definition cut_words (ws' ws : list str) : Prop :=
  exists p q, ws = p ++ q /\ (ws' = p \/ exists w x q', q = (w ++ x) :: q' /\ w <> [] /\ ws' = p ++ [w]).
Lemma cut_words_cons w ws' ws : cut_words ws' ws -> cut_words (w :: ws') (w :: ws).
Proof.
  intros (p & q & -> & [->|(w' & x & q' & -> & Ne & ->)]); exists (w :: p); eexists; (split; [reflexivity|]); [left; reflexivity|right; exists w', x, q'; auto].
Qed.
Lemma cut_words_nil ws : cut_words [] ws. Proof. exists [], ws. auto. Qed.
Lemma white_pre a b : white (a ++ b) -> white a. Proof. intros H c I. apply H, in_or_app. auto. Qed.
Lemma no_white_pre a b : no_white (a ++ b) -> no_white a. Proof. intros H c I. apply H, in_or_app. auto. Qed.
Lemma word_pre a b : a <> [] -> word (a ++ b) -> word a. Proof. intros Ne [_ H]. split; [auto|]. eapply no_white_pre; eauto. Qed.
Lemma weave_cut gs : forall g0 t u, woven g0 gs -> weave g0 gs = t ++ u ->
  exists h0 hs, woven h0 hs /\ t = weave h0 hs /\ cut_words (map fst hs) (map fst gs) /\ (hs <> [] -> h0 = g0).
Proof.
  induction gs as [|[w g] gs IH]; intros g0 t u [W0 W] E; cbn [weave] in E.
  - exists t, []. cbn [woven weave map]. rewrite E in W0. split; [split; [eapply white_pre; eauto|auto]|]. split; [auto|]. split; [apply cut_words_nil|congruence].
  - destruct W as (Ww & Wg & W). apply app_eq_app in E as (m & [[E1 E2]|[E1 E2]]).
    + exists t, []. cbn [woven weave map]. rewrite E1 in W0. split; [split; [eapply white_pre; eauto|auto]|]. split; [auto|]. split; [apply cut_words_nil|congruence].
    + apply app_eq_app in E2 as (m2 & [[E3 E4]|[E3 E4]]).
      * destruct m as [|c m].
        -- rewrite app_nil_r in E1. subst t. exists g0, []. cbn [woven weave map]. split; [auto|]. split; [auto|]. split; [apply cut_words_nil|auto].
        -- subst t w. exists g0, [(c :: m, [])]. cbn [woven weave map fst]. rewrite app_nil_r. split.
           { split; [auto|]. split; [eapply word_pre; eauto; discriminate|]. split; [intros H; contradiction (H eq_refl)|]. split; [apply white_nil|auto]. }
           split; [auto|]. split; [|auto].
           exists [], (((c :: m) ++ m2) :: map fst gs). split; [reflexivity|]. right. exists (c :: m), m2, (map fst gs). split; [reflexivity|]. split; [discriminate|reflexivity].
      * subst t m. destruct (IH g m2 u W E4) as (h0 & hs & Wh & -> & Hc & Hh). exists g0, ((w, h0) :: hs). cbn [woven weave map fst]. split.
        { split; [auto|]. split; [auto|]. split; [|auto]. intros Nh. rewrite (Hh Nh). apply Wg. intros ->. cbn [map] in Hc.
          destruct hs as [|[? ?] ?]; [congruence|]. destruct Hc as (p & q & Ep & [Eq|(? & ? & ? & Eq & _)]); destruct p; cbn in *; subst; discriminate. }
        split; [auto|]. split; [apply cut_words_cons; auto|auto].
Qed.

Lemma words_cut t u ws : words_of (t ++ u) ws -> exists ws', words_of t ws' /\ cut_words ws' ws.
Proof.
  intros (g0 & gs & W & E & <-). destruct (weave_cut gs g0 t u W (eq_sym E)) as (h0 & hs & Wh & -> & Hc & _). exists (map fst hs). split; [exists h0, hs; auto|auto].
Qed.
(** two texts with white space between them *)
Lemma weave_app gs : forall g0 h0 hs, woven g0 gs -> woven h0 hs -> h0 <> [] ->
  exists k0 ks, woven k0 ks /\ weave g0 gs ++ weave h0 hs = weave k0 ks /\ map fst ks = map fst gs ++ map fst hs /\ (k0 = g0 \/ k0 = g0 ++ h0).
Proof.
  induction gs as [|[w g] gs IH]; intros g0 h0 hs W Wh Nh.
  - cbn [weave map app]. destruct W as [W0 _]. exists (g0 ++ h0), hs. split; [|split; [|auto]].
    + destruct hs as [|[w g] hs]; cbn [woven] in *; [split; [|auto]|destruct Wh as [Wh0 Wh]; split; [|auto]]; intros c I; apply in_app_or in I as [I|I]; auto; apply Wh; auto.
    + destruct hs as [|[w g] hs]; cbn [weave]; [auto|rewrite <- app_assoc; auto].
  - destruct W as (W0 & Ww & Wg & W). destruct (IH g h0 hs W Wh Nh) as (k0 & ks & Wk & E & M & K). exists g0, ((w, k0) :: ks). cbn [woven weave map fst app]. split.
    { split; [auto|]. split; [auto|]. split; [|auto]. intros _ E0. subst k0. destruct K as [<-|K].
      - destruct gs as [|p gs]; [|exact (Wg ltac:(discriminate) eq_refl)]. cbn [weave app map] in *.
        clear - E Nh Wk Wh M. assert (Hf : weave h0 hs = weave [] ks) by exact E. destruct ks as [|[w g] ks].
        + destruct hs as [|[w g] hs]; [cbn [weave] in Hf; congruence|discriminate M].
        + destruct Wk as (_ & [Nw Ww] & _). destruct hs as [|[w2 g2] hs]; [discriminate M|]. destruct Wh as (Wh0 & _). cbn [weave app] in Hf. destruct h0 as [|c h0]; [congruence|]. destruct w as [|c' w]; [congruence|].
          cbn [app] in Hf. assert (c = c') by congruence. subst c'. apply (Ww c); [left; auto|]. apply Wh0. left; auto.
      - symmetry in K. apply app_eq_nil in K as [_ K]. congruence. }
    split; [rewrite <- !app_assoc, E; reflexivity|]. split; [rewrite M; reflexivity|auto].
Qed.
Lemma words_mid a b wa wb sep : words_of a wa -> words_of b wb -> white sep -> sep <> [] -> words_of (a ++ sep ++ b) (wa ++ wb).
Proof.
  intros (g0 & gs & W & -> & <-) (h0 & hs & Wh & -> & <-) Ws Ne.
  destruct (weave_app gs g0 (sep ++ h0) hs W) as (k0 & ks & Wk & E & M & _).
  - destruct hs as [|[w g] hs]; cbn [woven] in *; [split; [|auto]|destruct Wh as [Wh0 Wh]; split; [|auto]]; intros c I; apply in_app_or in I as [I|I]; auto; apply Wh; auto.
  - destruct sep; [congruence|discriminate].
  - exists k0, ks. split; [auto|]. split; [|auto]. rewrite <- E. f_equal. destruct hs as [|[w g] hs]; cbn [weave]; [auto|rewrite <- app_assoc; auto].
Qed.
(** a line with a mark has four words *)
Lemma mark_words beta l ws : occurs (occ_mark beta) l \/ occurs (virt_mark beta) l -> words_of l ws -> (4 <= length ws)%nat.
Proof.
  assert (G : forall m, (exists m1, m = $" " ++ m1 ++ $" " /\ (4 <= length (splitSt m1))%nat) -> occurs m l -> words_of l ws -> (4 <= length ws)%nat).
  { intros m (m1 & -> & L4) (a & b & ->) Hw. apply words_split in Hw. rewrite <- Hw. clear Hw ws.
    assert (H : words_of (a ++ ($" " ++ m1 ++ $" ") ++ b) (splitSt a ++ splitSt m1 ++ splitSt b)).
    { replace (a ++ ($" " ++ m1 ++ $" ") ++ b) with (a ++ $" " ++ (m1 ++ $" " ++ b)) by (rewrite <- !app_assoc; reflexivity).
      assert (Wsp : white $" ") by (intros c [<-|[]]; left; reflexivity).
      apply words_mid; [apply words_split; reflexivity| |auto|discriminate]. apply words_mid; [apply words_split; reflexivity|apply words_split; reflexivity|auto|discriminate]. }
    apply words_split in H. rewrite H, !app_length. lia. }
  intros [H|H]; eapply G; try exact H.
  - exists (spin_name beta ++ $"  occ. eigenvalues --"). destruct beta; (split; [reflexivity|apply Nat.leb_le; vm_compute; reflexivity]).
  - exists (spin_name beta ++ $" virt. eigenvalues --"). destruct beta; (split; [reflexivity|apply Nat.leb_le; vm_compute; reflexivity]).
Qed.
(** ** energies *)
Lemma energy_pre w x : w <> [] -> energy (w ++ x) -> energy w.
Proof. intros Ne [Hw He]. split; [eapply word_pre; eauto|]. intros a b ->. apply (He a (b ++ x)). now rewrite <- !app_assoc. Qed.
Lemma glued_cut es : forall w x, w <> [] -> glued (w ++ x) es -> exists es', glued w es' /\ (length es' <= length es)%nat.
Proof.
  induction es as [|e t IH]; intros w x Ne (E & Nes & Fe & Hd); [congruence|]. cbn [concat] in E. apply app_eq_app in E as (m & [[-> E2]|[-> E2]]).
  - inversion Fe as [|? ? He Ft]; subst. destruct m as [|c m].
    + exists [e]. split; [|cbn [length]; lia]. split; [reflexivity|]. split; [discriminate|]. split; [constructor; auto|]. intros e0 t0 Q. apply (f_equal (@tl _)) in Q. cbn [tl] in Q. rewrite <- Q. constructor.
    + pose proof (Hd e t eq_refl) as Hdt. destruct t as [|e1 t]; [discriminate E2|].
      destruct (IH (c :: m) x ltac:(discriminate)) as (es' & (G1 & G2 & G3 & G4) & L).
      { rewrite <- E2. split; [reflexivity|]. split; [discriminate|]. split; [auto|]. intros e0 t0 Q. assert (t0 = t) by congruence. subst. inversion Hdt; auto. }
      exists (e :: es'). split; [|cbn [length] in *; lia]. split; [cbn [concat]; now rewrite <- G1|]. split; [discriminate|]. split; [constructor; auto|].
      intros e0 t0 Q. assert (t0 = es') by congruence. subst. destruct es' as [|f fs]; [constructor|]. constructor; [|apply (G4 f fs eq_refl)].
      inversion Hdt as [|? ? (b & Eb) _]; subst. inversion G3 as [|? ? [[Nf _] _] _]; subst. destruct f as [|c' f]; [congruence|]. cbn [concat app] in *.
      assert (Ec : c = "-"%char) by (apply (f_equal (hd zero)) in E2; cbn [hd] in E2; symmetry; exact E2).
      assert (Ec' : c' = c) by (apply (f_equal (hd zero)) in G1; cbn [hd] in G1; symmetry; exact G1). exists f. rewrite Ec', Ec. reflexivity.
  - (* w prefix of e *) exists [w]. split; [|cbn [length]; lia]. pose proof (Forall_inv Fe) as He. rewrite ?H in *. split; [cbn [concat]; now rewrite app_nil_r|]. split; [discriminate|].
    split; [constructor; [eapply energy_pre; eauto|constructor]|]. intros e0 t0 Q. apply (f_equal (@tl _)) in Q. cbn [tl] in Q. rewrite <- Q. constructor.
Qed.
Lemma glued_words toks groups : Forall2 glued toks groups -> forall toks', cut_words toks' toks -> exists groups', Forall2 glued toks' groups' /\ (length (concat groups') <= length (concat groups))%nat.
Proof.
  intros H toks' (p & q & -> & Hc). apply Forall2_app_inv_l in H as (g1 & g2 & H1 & H2 & ->). rewrite concat_app, app_length.
  destruct Hc as [->|(w & x & q' & -> & Ne & ->)].
  - exists g1. split; [auto|lia].
  - inversion H2 as [|? g ? gs Hg Hgs]; subst. destruct (glued_cut g w x Ne Hg) as (g' & Hg' & L). exists (g1 ++ [g']). split; [apply Forall2_app; auto|]. rewrite concat_app, !app_length. cbn [concat]. rewrite !app_length. cbn [length]. lia.
Qed.
Lemma energy_words_cut ws es ws' : energy_words ws es -> cut_words ws' ws -> (4 <= length ws')%nat -> exists es', energy_words ws' es'.
Proof.
  intros (w1 & w2 & w3 & w4 & toks & groups & -> & G & -> & L5) (p & q & E & Hc) L4.
  destruct p as [|p1 [|p2 [|p3 [|p4 p]]]].
  1-3: exfalso; destruct Hc as [->|(w & x & q' & _ & _ & ->)]; rewrite ?app_length in L4; cbn [length] in L4; lia.
  - destruct Hc as [->|(w & x & q' & Eq & Ne & ->)]; [cbn [length] in L4; lia|]. exists []. exists p1, p2, p3, w, [], []. cbn [app]. split; [auto|]. split; [constructor|]. split; [auto|cbn [length]; lia].
  - cbn [app] in E. assert (Et : toks = p ++ q) by congruence.
    destruct (glued_words toks groups G (skipn 4 ws')) as (g' & Hg & L).
    { exists p, q. split; [auto|]. destruct Hc as [->|(w & x & q' & Eq & Ne & ->)]; [left; reflexivity|right; exists w, x, q'; auto]. }
    exists (concat g'). exists p1, p2, p3, p4, (skipn 4 ws'), g'. split; [|split; [auto|split; [auto|lia]]]. destruct Hc as [->|(w & x & q' & _ & _ & ->)]; reflexivity.
Qed.
(** a beginning of a line of energies is a line of energies, or its title is not complete *)
Lemma energy_line_cut N beta l v t u : energy_line N beta l v -> l = t ++ u -> is_line t /\ (not_energy_line beta t \/ exists v', energy_line N beta t v').
Proof.
  intros (Ll & Ho & ws & es & Hw & He & _) ->. assert (Lt : is_line t) by (intros I; apply Ll, in_or_app; auto). split; [auto|].
  destruct (words_cut t u ws Hw) as (ws' & Hw' & Hc).
  assert (G : occurs (occ_mark beta) t \/ occurs (virt_mark beta) t -> exists es', energy_words ws' es') by (intros H; apply (energy_words_cut ws es ws' He Hc), (mark_words beta t ws' H Hw')).
  destruct (foundSubStrInStr t (occ_mark beta)) eqn:E1; [|destruct (foundSubStrInStr t (virt_mark beta)) eqn:E2].
  - apply found_iff in E1. destruct (G (or_introl E1)) as (es' & He'). right. exists (true, map (n_atof N) es'). split; [exact Lt|]. split; [exact E1|]. eexists _, _. split; [exact Hw'|]. split; [exact He'|reflexivity].
  - apply found_iff in E2. apply found_not in E1. destruct (G (or_intror E2)) as (es' & He'). right. exists (false, map (n_atof N) es'). split; [exact Lt|]. split; [exact (conj E2 E1)|]. eexists _, _. split; [exact Hw'|]. split; [exact He'|reflexivity].
  - apply found_not in E1, E2. left. split; auto.
Qed.
