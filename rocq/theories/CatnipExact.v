(** * C58, C60 for every line the parser accepts *)
From Verif Require Import StrProps CatnipProps.
From Verif Require Export CatnipMore.
Open Scope Z_scope.

(** ** words of a string made of several *)
Lemma weave_app : forall l g0 s h0 k, woven g0 l -> white s -> s <> [] -> woven h0 k ->
  exists g q, weave g0 l ++ s ++ weave h0 k = weave g q /\ woven g q /\ map fst q = map fst l ++ map fst k /\ (l <> [] -> g = g0) /\ g <> [] \/
              (l <> [] /\ weave g0 l ++ s ++ weave h0 k = weave g0 q /\ woven g0 q /\ map fst q = map fst l ++ map fst k).
Proof.
  induction l as [|[w g1] t IH]; intros g0 s h0 k W Ws Ns Wk.
  - exists (g0 ++ s ++ h0), k. left. cbn [weave map app] in *. destruct W as [W _].
    assert (Wh : white h0) by (destruct k as [|[? ?] ?]; cbn [woven] in Wk; tauto).
    assert (Wg : white (g0 ++ s ++ h0)) by (intros c I; rewrite !in_app_iff in I; destruct I as [I|[I|I]]; auto).
    split; [|split; [|split; [auto|split; [intros C; destruct (C eq_refl)|]]]].
    + destruct k as [|[a b] k]; cbn [weave]; [reflexivity|]. rewrite <- !app_assoc. reflexivity.
    + destruct k as [|[a b] k]; cbn [woven] in *; tauto.
    + intros C. apply app_eq_nil in C as [_ C]. apply app_eq_nil in C as [C _]. auto.
  - cbn [woven] in W. destruct W as (W0 & Hw & Hg & W1).
    destruct (IH g1 s h0 k W1 Ws Ns Wk) as (g & q & [(H1 & H2 & H3 & H4 & H5)|(H1 & H2 & H3 & H4)]).
    + exists g0, ((w, g) :: q). right. split; [discriminate|]. cbn [weave map app fst woven]. split; [rewrite <- !app_assoc, H1; reflexivity|].
      split; [split; [auto|split; [auto|split; [auto|auto]]]|]. rewrite H3. reflexivity.
    + exists g0, ((w, g1) :: q). right. split; [discriminate|]. cbn [weave map app fst woven]. split; [rewrite <- !app_assoc, H2; reflexivity|].
      split; [split; [auto|split; [auto|split; [auto|auto]]]|]. rewrite H4. reflexivity.
Qed.
Lemma words_split s ws : words_are s ws <-> ws = splitSt s.
Proof.
  split.
  - intros (g & l & -> & W & ->). symmetry. apply splitSt_weave; auto.
  - intros ->. destruct (C39_every_string s) as (g & l & -> & W & Q & _). exists g, l. auto.
Qed.
Lemma split_app a s b : white s -> s <> [] -> splitSt (a ++ s ++ b) = splitSt a ++ splitSt b.
Proof.
  intros Ws Ns. destruct (proj2 (words_split a _) eq_refl) as (g & l & Ha & Wa & Qa). destruct (proj2 (words_split b _) eq_refl) as (h & k & Hb & Wb & Qb).
  rewrite Qa, Qb, Ha, Hb. destruct (weave_app l g s h k Wa Ws Ns Wb) as (g' & q & [(H1 & H2 & H3 & _)|(_ & H1 & H2 & H3)]);
  rewrite H1, splitSt_weave; auto.
Qed.
Lemma split_white s : white s -> splitSt s = [].
Proof. intros W. apply (splitSt_weave s []). split; auto. Qed.
Lemma split_nil s : splitSt s = [] -> white s.
Proof.
  intros H. destruct (proj2 (words_split s _) eq_refl) as (g & l & Hs & Wa & Q). rewrite H in Q. destruct l; [|discriminate]. cbn [weave woven] in *. rewrite Hs. apply Wa.
Qed.
Lemma split_pad a s b : white a -> white b -> splitSt (a ++ s ++ b) = splitSt s.
Proof.
  intros Wa Wb.
  assert (R : forall s b, white b -> splitSt (s ++ b) = splitSt s).
  { intros t c Wc. destruct c as [|x c]; [now rewrite app_nil_r|]. pose proof (split_app t (x :: c) [] Wc) as H. rewrite app_nil_r in H. rewrite H by discriminate.
    rewrite (split_white []); [apply app_nil_r|]. intros y []. }
  destruct a as [|x a]; [cbn [app]; apply R; auto|]. pose proof (split_app [] (x :: a) (s ++ b) Wa) as H. cbn [app] in H. cbn [app]. rewrite H by discriminate.
  rewrite (split_white []); [|intros y []]. cbn [app]. apply R; auto.
Qed.
Lemma split_trim s : splitSt (trim s) = splitSt s.
Proof. destruct (trim_spec s) as (a & b & Wa & Wb & H & _). rewrite H at 2. symmetry. apply split_pad; auto. Qed.
Lemma split_join_any ws : splitSt (join ws) = concat (map splitSt ws).
Proof.
  unfold join. rewrite split_trim. induction ws as [|w t IH]; cbn [map concat]; [reflexivity|]. rewrite <- app_assoc.
  rewrite split_app; [rewrite IH; reflexivity| |discriminate]. intros c [<-|[]]. vm_compute; auto.
Qed.
Lemma words_enough qs : Forall (fun q => ~ white q) qs -> (length qs <= length (concat (map splitSt qs)))%nat.
Proof.
  induction 1 as [|q t N F IH]; cbn [map concat length]; [lia|]. rewrite app_length.
  destruct (splitSt q) eqn:Q; [destruct N; apply split_nil; auto|]. cbn [length]. lia.
Qed.

Section Exact.
Context {E : env}.
(** the word belonging to the last existing path *)
Fixpoint last_named (l : list (str * str)) : option str :=
  match l with [] => None | (q, w) :: t => orelse (last_named t) (if file_exists E q then Some w else None) end.
Lemma sis_loop_words g ps : forall pre ws m, (length ps <= length ws)%nat ->
  for_each (bits E ps) (sis_step (pre ++ ws) g) (Z.of_nat (length pre), m) =
  Ok (Z.of_nat (length pre + length ps), upd (last_named (combine ps ws)) g m).
Proof.
  induction ps as [|q t IH]; intros pre ws m Le; cbn [bits map for_each]; [rewrite Nat.add_0_r; reflexivity|].
  fold (bits E t). destruct ws as [|w ws]; [cbn [length] in Le; lia|]. cbn [length] in Le.
  assert (St : sis_step (pre ++ w :: ws) g (if file_exists E q then s_true else s_false) (Z.of_nat (length pre), m) =
    Ok (Z.of_nat (length (pre ++ [w])), upd (if file_exists E q then Some w else None) g m)).
  { unfold sis_step. cbn [fst snd]. rewrite app_length. cbn [length]. replace (Z.of_nat (length pre + 1)) with (Z.of_nat (length pre) + 1) by lia.
    destruct (file_exists E q); [|reflexivity]. change (str_eqb s_true s_true) with true. cbv iota.
    unfold vat. destruct (Z.ltb_spec (Z.of_nat (length pre)) 0); [lia|]. rewrite Nat2Z.id, nth_error_app2, Nat.sub_diag by lia. reflexivity. }
  rewrite St. cbn [bind]. replace (pre ++ w :: ws) with ((pre ++ [w]) ++ ws) by (rewrite <- app_assoc; reflexivity). rewrite IH by lia.
  cbn [last_named combine]. rewrite upd_orelse, app_length. cbn [length]. replace (length pre + 1 + length t)%nat with (length pre + S (length t))%nat by lia. reflexivity.
Qed.
Lemma resolve_words (P : parser E) l f g exts : says P l f exts -> exts <> [] -> Forall (fun e => ~ white e) exts ->
  exists sis, (forall m, resolve_flag P (f, g) m = Ok (upd (own_name (E:=E) l f) f (fst m), upd sis g (snd m))) /\
    (vals f l = [] -> sis = None) /\
    (forall w dir core ext, last_value f l w -> path_is w dir core ext ->
       let paths := map (fun e => dir ++ core ++ e) exts in sis = last_named (combine paths (concat (map splitSt paths)))).
Proof.
  intros (S1 & S2 & S3 & S4) Ne We. unfold resolve_flag.
  assert (Own : forall m : smap str, (if str_eqb (if existsb (file_exists E) (vals f l) then $"1" else $"0") $"1" then s <- getStr P f ;; Ok (m_set f s m) else Ok m) = Ok (upd (own_name (E:=E) l f) f m)).
  { intros m. unfold own_name. destruct (existsb (file_exists E) (vals f l)) eqn:X; [|reflexivity]. cbv iota.
    assert (Nv : vals f l <> []) by (intros C; rewrite C in X; discriminate). destruct (exists_last Nv) as (r & w & Hw).
    rewrite (S3 w) by (apply vals_last; eauto). rewrite Hw, last_last. reflexivity. }
  destruct (last_or_none f l) as [(w & Lw)|Nn].
  - destruct (path_is_exists w) as (dir & core & ext & Hp). set (paths := map (fun e => dir ++ core ++ e) exts) in *.
    exists (last_named (combine paths (concat (map splitSt paths)))).
    destruct (S4 _ _ _ _ Lw Hp) as [B1 B2]. fold paths in B1, B2. split; [|split].
    + intros m. rewrite S1. cbn [bind]. rewrite Own. cbn [bind]. rewrite B1, B2. cbn [bind].
      assert (Nm : paths <> []) by (intros C; apply map_eq_nil in C; auto).
      rewrite split_join; [|intros C; unfold bits in C; apply map_eq_nil in C; auto|apply bits_words].
      rewrite split_join_any.
      assert (Le : (length paths <= length (concat (map splitSt paths)))%nat).
      { apply words_enough. apply Forall_map, Forall_forall. intros e I C. rewrite Forall_forall in We. apply (We e I). intros c Hc. apply C. rewrite !in_app_iff. auto. }
      pose proof (sis_loop_words g paths [] _ (snd m) Le) as Lp.
      unfold sis_step in Lp. cbn [app length Z.of_nat] in Lp. rewrite Lp. reflexivity.
    + intros C. apply vals_last in Lw as (r & Lw). rewrite Lw in C. destruct r; discriminate.
    + intros w' dir' core' ext' Lw' Hp'. rewrite (last_unique _ _ _ _ Lw' Lw) in Hp'.
      destruct (path_is_unique _ _ _ _ _ _ _ Hp Hp') as (-> & -> & ->). reflexivity.
  - exists None. pose proof (proj1 (vals_none f l) Nn) as Vn. destruct (S2 Vn) as [B1 B2]. split; [|split; [auto|]].
    + intros m. rewrite S1. cbn [bind]. rewrite Own. cbn [bind]. rewrite B1, B2. reflexivity.
    + intros w dir core ext Lw. exfalso. eapply Nn, last_in; eauto.
Qed.
Definition word_name (l : list item) (f : str) (exts : list str) (sis : option str) : Prop :=
  (vals f l = [] -> sis = None) /\
  (forall w dir core ext, last_value f l w -> path_is w dir core ext ->
     let paths := map (fun e => dir ++ core ++ e) exts in sis = last_named (combine paths (concat (map splitSt paths)))).
Lemma exts_solid : Forall (fun e => ~ white e) log_exts /\ Forall (fun e => ~ white e) pun_exts.
Proof.
  assert (W : forall c s, is_space c = false -> ~ white (c :: s)).
  { intros c s H C. specialize (C c (or_introl eq_refl)). apply is_space_in in C. congruence. }
  split; repeat (constructor; [apply W; reflexivity|]); constructor.
Qed.
Lemma resolve_every l (P : parser E) : valid (catnip E) l -> run (catnip E) l P -> alike (catnip E) P -> wf P ->
  exists m, for_each file_pairs (resolve_flag P) ([], []) = Ok m /\
    forall own partner, In (own, partner) file_pairs -> exists sis, pick m own = picked (own_name (E:=E) l own) sis /\
      word_name l partner (if existsb (str_eqb own) pun_flags then pun_exts else log_exts) sis.
Proof.
  intros V R L W. destruct exts_solid as (X1 & X2).
  assert (St : forall f g, In f file_flags -> exists sis, (forall m, resolve_flag P (f, g) m = Ok (upd (own_name (E:=E) l f) f (fst m), upd sis g (snd m))) /\
     word_name l f (if existsb (str_eqb f) pun_flags then log_exts else pun_exts) sis).
  { intros f g I. pose proof (says_all l P f V R L W I) as S. eapply resolve_words in S as (sis & A & B & C).
    - exists sis. split; [exact A|split; [exact B|exact C]].
    - destruct (existsb _ _); discriminate.
    - destruct (existsb _ _); auto. }
  assert (I6 : In $"--pun_P" file_flags /\ In $"--pun_1" file_flags /\ In $"--pun_2" file_flags /\ In $"--log_P" file_flags /\ In $"--log_1" file_flags /\ In $"--log_2" file_flags) by (unfold file_flags; cbn [In]; tauto).
  destruct I6 as (I1 & I2 & I3 & I4 & I5 & I6).
  destruct (St _ $"--log_P" I1) as (sP & AP & BP). destruct (St _ $"--log_1" I2) as (s1 & A1 & B1). destruct (St _ $"--log_2" I3) as (s2 & A2 & B2).
  destruct (St _ $"--pun_P" I4) as (tP & CP & DP). destruct (St _ $"--pun_1" I5) as (t1 & C1 & D1). destruct (St _ $"--pun_2" I6) as (t2 & C2 & D2).
  unfold file_pairs at 1. cbn [for_each]. rewrite AP. cbn [bind]. rewrite A1. cbn [bind]. rewrite A2. cbn [bind]. rewrite CP. cbn [bind]. rewrite C1. cbn [bind]. rewrite C2. cbn [bind fst snd].
  eexists. split; [reflexivity|].
  match goal with |- context [pick ?m _] => destruct (pick_six (own_name (E:=E) l $"--pun_P") (own_name (E:=E) l $"--pun_1") (own_name (E:=E) l $"--pun_2") (own_name (E:=E) l $"--log_P") (own_name (E:=E) l $"--log_1") (own_name (E:=E) l $"--log_2") sP s1 s2 tP t1 t2 m eq_refl eq_refl) as (P1 & P2 & P3 & P4 & P5 & P6) end.
  intros own partner I. unfold file_pairs in I. cbn [In] in I.
  destruct I as [I|[I|[I|[I|[I|[I|[]]]]]]]; inversion I; subst own partner; [exists tP|exists t1|exists t2|exists sP|exists s1|exists s2]; split; assumption.
Qed.

(** ** the specification *)
Lemma last_named_iff : forall ps ws n, (length ps <= length ws)%nat -> last_named (combine ps ws) = Some n <->
  exists i q, nth_error ps i = Some q /\ file_exists E q = true /\ (forall j q', (i < j)%nat -> nth_error ps j = Some q' -> file_exists E q' = false) /\ nth_error ws i = Some n.
Proof.
  induction ps as [|q t IH]; intros ws n Le; cbn [combine last_named].
  - split; [discriminate|]. intros (i & q & H & _). destruct i; discriminate.
  - destruct ws as [|w ws]; [cbn [length] in Le; lia|]. cbn [length] in Le. cbn [last_named]. specialize (IH ws).
    destruct (last_named (combine t ws)) as [v|] eqn:Q; cbn [orelse].
    + split.
      * intros H. assert (v = n) by congruence. subst v. destruct (proj1 (IH n ltac:(lia)) eq_refl) as (i & q0 & A & B & C & D).
        exists (S i), q0. split; [exact A|]. split; [auto|]. split; [|exact D]. intros [|j] q' Lt Hj; [lia|]. apply (C j q'); [lia|exact Hj].
      * intros (i & q0 & A & B & C & D). apply IH; [lia|]. destruct i as [|i].
        { exfalso. destruct (proj1 (IH v ltac:(lia)) eq_refl) as (i & q1 & A' & B' & _). rewrite (C (S i) q1) in B'; [discriminate|lia|exact A']. }
        exists i, q0. split; [exact A|]. split; [auto|]. split; [|exact D]. intros j q' Lt Hj. apply (C (S j) q'); [lia|exact Hj].
    + split.
      * destruct (file_exists E q) eqn:F; [|discriminate]. intros H. assert (w = n) by congruence. subst w. exists 0%nat, q. split; [reflexivity|]. split; [auto|]. split; [|reflexivity].
        intros [|j] q' Lt Hj; [lia|]. cbn [nth_error] in Hj. destruct (file_exists E q') eqn:F'; auto. exfalso.
        assert (X : exists i u, nth_error t i = Some u /\ file_exists E u = true /\ forall k u', (i < k)%nat -> nth_error t k = Some u' -> file_exists E u' = false).
        { clear - Hj F'. revert j Hj. induction t as [|a t IHt]; intros j Hj; [destruct j; discriminate|].
          destruct (existsb (file_exists E) t) eqn:X.
          - apply existsb_exists in X as (u & Iu & Fu). apply In_nth_error in Iu as (k & Hk).
            assert (G : forall k u, nth_error t k = Some u -> file_exists E u = true -> exists i u, nth_error t i = Some u /\ file_exists E u = true /\ forall k u', (i < k)%nat -> nth_error t k = Some u' -> file_exists E u' = false).
            { clear - t. induction t as [|a t IH]; intros k u Hk Fu; [destruct k; discriminate|].
              destruct (existsb (file_exists E) t) eqn:X.
              - apply existsb_exists in X as (v & Iv & Fv). apply In_nth_error in Iv as (k2 & Hk2). destruct (IH _ _ Hk2 Fv) as (i & z & A & B & C).
                exists (S i), z. split; [exact A|]. split; [auto|]. intros [|k3] u' Lt Hk3; [lia|]. apply (C k3 u'); [lia|exact Hk3].
              - destruct k as [|k].
                + exists 0%nat, u. split; [exact Hk|]. split; [auto|]. intros [|k3] u' Lt Hk3; [lia|]. cbn [nth_error] in Hk3. apply nth_error_In in Hk3.
                  destruct (file_exists E u') eqn:Fu'; auto. rewrite <- X. symmetry. apply existsb_exists. eauto.
                + cbn [nth_error] in Hk. apply nth_error_In in Hk. assert (existsb (file_exists E) t = true) by (apply existsb_exists; eauto). congruence. }
            destruct (G _ _ Hk Fu) as (i & z & A & B & C). exists (S i), z. split; [exact A|]. split; [auto|]. intros [|k3] u' Lt Hk3; [lia|]. apply (C k3 u'); [lia|exact Hk3].
          - destruct j as [|j].
            + exists 0%nat, q'. split; [exact Hj|]. split; [auto|]. intros [|k3] u' Lt Hk3; [lia|]. cbn [nth_error] in Hk3. apply nth_error_In in Hk3.
              destruct (file_exists E u') eqn:Fu'; auto. rewrite <- X. symmetry. apply existsb_exists. eauto.
            + cbn [nth_error] in Hj. apply nth_error_In in Hj. assert (existsb (file_exists E) t = true) by (apply existsb_exists; eauto). congruence. }
        destruct X as (i & u & A & B & C). assert (Lti : (i < length t)%nat) by (apply nth_error_Some; congruence).
        destruct (nth_error ws i) as [z|] eqn:Z0; [|apply nth_error_None in Z0; lia].
        assert (None = Some z) by (apply IH; [lia|]; exists i, u; auto). discriminate.
      * intros (i & q0 & A & B & C & D). destruct i as [|i].
        { cbn [nth_error] in A, D. assert (q0 = q) by congruence. subst q0. rewrite B. exact D. }
        exfalso. assert (None = Some n); [|discriminate]. apply IH; [lia|]. exists i, q0. split; [exact A|]. split; [auto|]. split; [|exact D].
        intros j q' Lt Hj. apply (C (S j) q'); [lia|exact Hj].
Qed.
Lemma named_iff w dir core ext exts n : path_is w dir core ext -> Forall (fun e => ~ white e) exts ->
  let paths := map (fun e => dir ++ core ++ e) exts in
  (named E w exts n <-> last_named (combine paths (concat (map splitSt paths))) = Some n).
Proof.
  intros Hp Ws paths.
  assert (Le : (length paths <= length (concat (map splitSt paths)))%nat).
  { apply words_enough. apply Forall_map, Forall_forall. intros e I C. rewrite Forall_forall in Ws. apply (Ws e I). intros c Hc. apply C. rewrite !in_app_iff. auto. }
  rewrite (last_named_iff _ _ _ Le).
  assert (S : forall qs, Forall2 (sister_of w) exts qs <-> qs = paths).
  { intros qs. subst paths. clear Ws Le. revert qs. induction exts as [|e t IH]; intros qs; split.
    - intros H. inversion H; auto.
    - intros ->. constructor.
    - intros H. inversion H as [|? q ? qs' S F]; subst. cbn [map]. apply IH in F. subst qs'. destruct S as (d & c & x & Hp' & ->).
      destruct (path_is_unique _ _ _ _ _ _ _ Hp Hp') as (-> & -> & ->). reflexivity.
    - intros ->. cbn [map]. constructor; [exists dir, core, ext; auto|]. apply IH. reflexivity. }
  assert (Sw : forall qs wss, Forall2 words_are qs wss <-> wss = map splitSt qs).
  { induction qs as [|q t IH]; intros wss; split.
    - intros H; inversion H; auto.
    - intros ->. constructor.
    - intros H. inversion H as [|? z ? ws' H1 F]; subst. apply IH in F. apply words_split in H1. subst. reflexivity.
    - intros ->. cbn [map]. constructor; [apply words_split; reflexivity|apply IH; reflexivity]. }
  unfold named. split.
  - intros (qs & wss & i & q & A & B & C & D & F & G). apply S in A. apply Sw in B. subst qs wss. exists i, q. auto.
  - intros (i & q & C & D & F & G). exists paths, (map splitSt paths), i, q. split; [apply S; auto|]. split; [apply Sw; auto|]. auto.
Qed.
Lemma used_iff l own partner exts sis n : Forall (fun e => ~ white e) exts -> word_name l partner exts sis ->
  (picked (own_name (E:=E) l own) sis = Ok n <-> uses E l own partner exts n).
Proof.
  intros Ws [S0 S1]. unfold picked, uses, own_name.
  destruct (existsb (file_exists E) (vals own l)) eqn:X; cbn [orelse].
  - assert (Nv : vals own l <> []) by (intros C; rewrite C in X; discriminate). destruct (exists_last Nv) as (r & v & Hv). rewrite Hv, last_last.
    assert (Lv : last_value own l v) by (apply vals_last; eauto).
    apply existsb_exists in X as (u & Iu & Fu). apply in_vals in Iu. split.
    + intros H. assert (v = n) by congruence. subst v. left. eauto.
    + intros [(L & _)|[N _]]; [f_equal; eapply last_unique; eauto|]. rewrite (N u Iu) in Fu. discriminate.
  - assert (N : forall w, In (own, w) (given l) -> file_exists E w = false).
    { intros w I. apply in_vals in I. destruct (file_exists E w) eqn:F; auto. rewrite <- X. symmetry. apply existsb_exists. eauto. }
    split.
    + destruct sis as [q|] eqn:Q; [|discriminate]. intros H. assert (q = n) by congruence. subst q. right. split; [auto|].
      destruct (last_or_none partner l) as [(w & Lw)|Nn].
      * exists w. split; auto. destruct (path_is_exists w) as (dir & core & ext & Hp). apply (named_iff _ _ _ _ _ _ Hp Ws). rewrite <- (S1 _ _ _ _ Lw Hp). auto.
      * exfalso. apply vals_none in Nn. specialize (S0 Nn). discriminate.
    + intros [[L (u & Iu & Fu)]|[_ (w & Lw & B)]]; [exfalso; rewrite (N u Iu) in Fu; discriminate|].
      destruct (path_is_exists w) as (dir & core & ext & Hp). apply (named_iff _ _ _ _ _ _ Hp Ws) in B. rewrite <- (S1 _ _ _ _ Lw Hp) in B. rewrite B. auto.
Qed.
End Exact.
