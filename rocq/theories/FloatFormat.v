(** * The %g text determines sign, digits and exponent *)
From Verif Require Export FloatModel ArgsFacts.

Definition digs (s : str) : Prop := Forall (fun c => is_digit c = true) s.

Lemma digit_inj a b : 0 <= a < 10 -> 0 <= b < 10 -> digit a = digit b -> a = b.
Proof.
  intros Ha Hb E. destruct (digit_facts a Ha) as (_ & A & _). destruct (digit_facts b Hb) as (_ & B & _).
  rewrite <- A, <- B, E. reflexivity.
Qed.
Lemma digit_is d : 0 <= d < 10 -> is_digit (digit d) = true.
Proof. intros H. apply digit_facts in H. apply H. Qed.

Lemma digit_string_eq d : digit_string d =
  [digit (d / 100000 mod 10); digit (d / 10000 mod 10); digit (d / 1000 mod 10);
   digit (d / 100 mod 10); digit (d / 10 mod 10); digit (d / 1 mod 10)].
Proof. reflexivity. Qed.

Lemma digit_string_digs d : digs (digit_string d).
Proof.
  rewrite digit_string_eq. unfold digs.
  repeat (apply Forall_cons; [apply digit_is; apply Z.mod_pos_bound; lia|]). apply Forall_nil.
Qed.
Lemma digit_string_len d : length (digit_string d) = 6%nat.
Proof. reflexivity. Qed.

Lemma digit_string_inj d d' : 0 <= d < 1000000 -> 0 <= d' < 1000000 ->
  digit_string d = digit_string d' -> d = d'.
Proof.
  intros H H' E. rewrite !digit_string_eq in E. injection E as E5 E4 E3 E2 E1 E0.
  apply digit_inj in E5; try (apply Z.mod_pos_bound; lia).
  apply digit_inj in E4; try (apply Z.mod_pos_bound; lia).
  apply digit_inj in E3; try (apply Z.mod_pos_bound; lia).
  apply digit_inj in E2; try (apply Z.mod_pos_bound; lia).
  apply digit_inj in E1; try (apply Z.mod_pos_bound; lia).
  apply digit_inj in E0; try (apply Z.mod_pos_bound; lia).
  assert (F : forall n, 0 <= n < 1000000 ->
    n = 100000 * (n / 100000 mod 10) + 10000 * (n / 10000 mod 10) + 1000 * (n / 1000 mod 10)
        + 100 * (n / 100 mod 10) + 10 * (n / 10 mod 10) + n / 1 mod 10).
  { intros n Hn. Z.to_euclidean_division_equations; lia. }
  rewrite (F d H), (F d' H'), E5, E4, E3, E2, E1, E0. reflexivity.
Qed.

Lemma digit_string_lead d : 100000 <= d < 1000000 ->
  exists k t, 1 <= k < 10 /\ digit_string d = digit k :: t.
Proof.
  intros H. rewrite digit_string_eq. eexists _, _. split; [|reflexivity].
  Z.to_euclidean_division_equations; lia.
Qed.

Local Opaque digit_string.

(** ** Stripping zeros *)
Lemma strip0_cons c s : strip0 (c :: s) =
  match strip0 s with [] => if Ascii.eqb c "0" then [] else [c] | t => c :: t end.
Proof. reflexivity. Qed.

Lemma strip0_pad s : exists k, s = strip0 s ++ repeat "0"%char k.
Proof.
  induction s as [|c s [k IH]]; [exists 0%nat; reflexivity|]. rewrite strip0_cons.
  destruct (strip0 s) as [|c1 t] eqn:E.
  - destruct (Ascii.eqb_spec c "0").
    + exists (S k). cbn in *. congruence.
    + exists k. cbn in *. congruence.
  - exists k. cbn in *. congruence.
Qed.

Lemma strip0_digs s : digs s -> digs (strip0 s).
Proof.
  destruct (strip0_pad s) as [k E]. intros H. rewrite E in H.
  apply Forall_app in H as [H _]. exact H.
Qed.

Lemma strip0_inj s s' : length s = length s' -> strip0 s = strip0 s' -> s = s'.
Proof.
  intros L E. destruct (strip0_pad s) as [k Ek]. destruct (strip0_pad s') as [k' Ek'].
  assert (k = k').
  { rewrite Ek, Ek', !app_length, !repeat_length, E in L. lia. }
  rewrite Ek, Ek', E. congruence.
Qed.

(** zeros followed by a non-zero digit and more *)
Lemma strip0_zeros n s : strip0 s <> [] ->
  strip0 (repeat "0"%char n ++ s) = repeat "0"%char n ++ strip0 s.
Proof.
  intros H. induction n as [|n IH]; [reflexivity|]. cbn [repeat app].
  rewrite strip0_cons, IH. destruct (repeat "0"%char n ++ strip0 s) eqn:E; [|reflexivity].
  apply app_eq_nil in E as [_ E]. contradiction.
Qed.
Lemma strip0_lead k t : 1 <= k < 10 -> exists t', strip0 (digit k :: t) = digit k :: t'.
Proof.
  intros H. rewrite strip0_cons. destruct (strip0 t) as [|c t'].
  - assert (Ascii.eqb (digit k) "0" = false) as ->.
    { apply Ascii.eqb_neq. change "0"%char with (digit 0). intros E. apply digit_inj in E; lia. }
    exists []; auto.
  - exists (c :: t'); auto.
Qed.

Lemma repeat_lead {B} (c : B) n n' (x x' : B) t t' : x <> c -> x' <> c ->
  repeat c n ++ x :: t = repeat c n' ++ x' :: t' -> n = n' /\ x :: t = x' :: t'.
Proof.
  intros H H'. revert n'. induction n as [|n IH]; intros [|n'] E; cbn in E; auto.
  - congruence.
  - congruence.
  - injection E as E. apply IH in E as [-> E]. auto.
Qed.

(** ** Reading back the parts *)
Lemma span_eq a a' r r' : digs a -> digs a' -> stops r -> stops r' ->
  a ++ r = a' ++ r' -> a = a' /\ r = r'.
Proof.
  revert a'. induction a as [|c a IH]; intros [|c' a'] H H' S S' E; cbn in E; auto.
  - inversion H' as [|? ? P _]; subst. rewrite (S c' (a' ++ r')) in P by auto. discriminate.
  - inversion H as [|? ? P _]; subst. rewrite (S' c (a ++ r)) in P by auto. discriminate.
  - injection E as -> E. inversion H; inversion H'; subst.
    apply IH in E as [-> ->]; auto.
Qed.

Definition suffix (s : str) : Prop := s = [] \/ exists t, s = "e"%char :: t.

Lemma suffix_stops s : suffix s -> stops s.
Proof. intros [->|(t & ->)] c t' E; inversion E; reflexivity. Qed.

Lemma with_point_inj ip ip' fp fp' sx sx' : digs ip -> digs ip' -> digs fp -> digs fp' ->
  suffix sx -> suffix sx' ->
  with_point ip fp ++ sx = with_point ip' fp' ++ sx' ->
  ip = ip' /\ strip0 fp = strip0 fp' /\ sx = sx'.
Proof.
  intros Hi Hi' Hf Hf' Hs Hs' E. unfold with_point in E.
  apply strip0_digs in Hf, Hf'.
  set (pt := fun f : str => match f with [] => [] | _ => "."%char :: f end).
  assert (Q : forall i f s, match f with [] => i | _ => i ++ "."%char :: f end ++ s = i ++ (pt f ++ s)).
  { intros i [|c f] s; cbn; [reflexivity|]. now rewrite <- app_assoc. }
  assert (E' : ip ++ (pt (strip0 fp) ++ sx) = ip' ++ (pt (strip0 fp') ++ sx')).
  { rewrite <- !Q. destruct (strip0 fp), (strip0 fp'); exact E. }
  assert (St : forall f s, suffix s -> stops (pt f ++ s)).
  { intros [|c f] s Hx; cbn; [now apply suffix_stops|]. intros c0 t X. injection X as <- _. reflexivity. }
  apply span_eq in E' as [-> E2]; auto. split; auto.
  destruct (strip0 fp) as [|c f], (strip0 fp') as [|c' f']; cbn in E2.
  - auto.
  - destruct Hs as [->|(t & ->)]; discriminate.
  - destruct Hs' as [->|(t & ->)]; discriminate.
  - injection E2 as Ec E2.
    assert (E3 : (c :: f) ++ sx = (c' :: f') ++ sx') by (cbn; congruence).
    apply span_eq in E3 as [E3 E4]; auto using suffix_stops.
Qed.

Lemma exponent_suffix X : suffix (exponent_text X).
Proof. right. eexists. reflexivity. Qed.

(** The value of a digit string. *)
Lemma dec_value z : 0 <= z -> digits_val 0 (dec_nonneg z) = z.
Proof.
  intros H. destruct (dec_nonneg_digits z H) as (ds & E & _ & F & V).
  rewrite E, <- (app_nil_r (map digit ds)), digits_val_map by auto. cbn. exact V.
Qed.

Lemma exponent_inj X X' : exponent_text X = exponent_text X' -> X = X'.
Proof.
  unfold exponent_text. intros E. injection E as Es Ed.
  assert (Sg : (X <? 0) = (X' <? 0)).
  { destruct (X <? 0), (X' <? 0); auto; discriminate. }
  assert (V : forall Y, digits_val 0 (if Z.abs Y <? 10 then "0"%char :: dec_nonneg (Z.abs Y)
                else dec_nonneg (Z.abs Y)) = Z.abs Y).
  { intros Y. destruct (Z.abs Y <? 10); [change (digits_val 0 (dec_nonneg (Z.abs Y)) = Z.abs Y)|];
      apply dec_value; lia. }
  assert (Ab : Z.abs X = Z.abs X') by exact (eq_trans (eq_sym (V X)) (eq_trans (f_equal (digits_val 0) Ed) (V X'))).
  destruct (Z.ltb_spec X 0), (Z.ltb_spec X' 0); try discriminate; lia.
Qed.

Lemma digs_zeros n : digs (repeat "0"%char n).
Proof. induction n; cbn; constructor; auto. Qed.

Lemma digs_firstn n s : digs s -> digs (firstn n s).
Proof. intros H. rewrite <- (firstn_skipn n s) in H. apply Forall_app in H. apply H. Qed.
Lemma digs_skipn n s : digs s -> digs (skipn n s).
Proof. intros H. rewrite <- (firstn_skipn n s) in H. apply Forall_app in H. apply H. Qed.

Lemma pair3 {A B C} (a a' : A) (b b' : B) (c c' : C) :
  (a, b, c) = (a', b', c') -> a = a' /\ b = b' /\ c = c'.
Proof. intros E; now inversion E. Qed.

(** The parts of a formatted number. *)
Definition parts (d X : Z) : str * str * str :=
  let ds := digit_string d in
  if (X <? -4) || (6 <=? X) then (firstn 1 ds, skipn 1 ds, exponent_text X)
  else if 0 <=? X then (firstn (Z.to_nat (X + 1)) ds, skipn (Z.to_nat (X + 1)) ds, [])
  else ($"0", repeat "0"%char (Z.to_nat (- X - 1)) ++ ds, []).

Lemma format_parts d X : format_g d X =
  let '(ip, fp, sx) := parts d X in with_point ip fp ++ sx.
Proof.
  unfold format_g, parts. destruct ((X <? -4) || (6 <=? X)); [reflexivity|].
  destruct (0 <=? X); now rewrite app_nil_r.
Qed.

Lemma parts_ok d X ip fp sx : parts d X = (ip, fp, sx) -> digs ip /\ digs fp /\ suffix sx.
Proof.
  unfold parts. pose proof (digit_string_digs d) as D.
  destruct ((X <? -4) || (6 <=? X)); [|destruct (0 <=? X)]; intros E; injection E as <- <- <-.
  - split; [|split; [|apply exponent_suffix]].
    + exact (digs_firstn 1 _ D).
    + exact (digs_skipn 1 _ D).
  - split; [|split; [|left; reflexivity]]; [apply digs_firstn|apply digs_skipn]; exact D.
  - split; [|split; [|left; reflexivity]].
    + repeat constructor.
    + apply Forall_app. split; [apply digs_zeros|exact D].
Qed.

Lemma format_inj d d' X X' : 100000 <= d < 1000000 -> 100000 <= d' < 1000000 ->
  format_g d X = format_g d' X' -> d = d' /\ X = X'.
Proof.
  intros H H' E. rewrite !format_parts in E.
  destruct (parts d X) as [[ip fp] sx] eqn:P. destruct (parts d' X') as [[ip' fp'] sx'] eqn:P'.
  destruct (parts_ok _ _ _ _ _ P) as (A1 & A2 & A3). destruct (parts_ok _ _ _ _ _ P') as (B1 & B2 & B3).
  apply with_point_inj in E as (E1 & E2 & E3); auto. clear A1 A2 A3 B1 B2 B3.
  unfold parts in P, P'.
  destruct ((X <? -4) || (6 <=? X)) eqn:C; destruct ((X' <? -4) || (6 <=? X')) eqn:C'.
  - apply pair3 in P as (<- & <- & <-). apply pair3 in P' as (<- & <- & <-).
    apply exponent_inj in E3. split; auto.
    apply strip0_inj in E2; [|rewrite !skipn_length, !digit_string_len; reflexivity].
    apply digit_string_inj; try lia.
    rewrite <- (firstn_skipn 1 (digit_string d)), <- (firstn_skipn 1 (digit_string d')).
    f_equal; assumption.
  - exfalso. apply pair3 in P as (_ & _ & <-). destruct (0 <=? X'); apply pair3 in P' as (_ & _ & <-); discriminate.
  - exfalso. apply pair3 in P' as (_ & _ & <-). destruct (0 <=? X); apply pair3 in P as (_ & _ & <-); discriminate.
  - apply orb_false_iff in C as [C1 C2]. apply orb_false_iff in C' as [C1' C2'].
    apply Z.ltb_ge in C1, C1'. apply Z.leb_gt in C2, C2'.
    destruct (digit_string_lead d H) as (k & t & Hk & Ds).
    destruct (digit_string_lead d' H') as (k' & t' & Hk' & Ds').
    destruct (Z.leb_spec 0 X), (Z.leb_spec 0 X').
    + apply pair3 in P as (<- & <- & <-). apply pair3 in P' as (<- & <- & <-).
      assert (X = X').
      { apply (f_equal (@length ascii)) in E1.
        rewrite !firstn_length, !digit_string_len in E1. lia. }
      subst X'. apply strip0_inj in E2; [|rewrite !skipn_length, !digit_string_len; reflexivity].
      split; auto. apply digit_string_inj; try lia.
      rewrite <- (firstn_skipn (Z.to_nat (X + 1)) (digit_string d)),
              <- (firstn_skipn (Z.to_nat (X + 1)) (digit_string d')).
      f_equal; assumption.
    + exfalso. apply pair3 in P as (<- & <- & <-). apply pair3 in P' as (<- & <- & <-).
      rewrite Ds in E1. replace (Z.to_nat (X + 1)) with (S (Z.to_nat X)) in E1 by lia.
      cbn [firstn] in E1. apply (f_equal (hd "e"%char)) in E1. cbn [hd] in E1.
      change (digit k = digit 0) in E1. apply digit_inj in E1; lia.
    + exfalso. apply pair3 in P as (<- & <- & <-). apply pair3 in P' as (<- & <- & <-).
      rewrite Ds' in E1. replace (Z.to_nat (X' + 1)) with (S (Z.to_nat X')) in E1 by lia.
      cbn [firstn] in E1. apply (f_equal (hd "e"%char)) in E1. cbn [hd] in E1.
      change (digit 0 = digit k') in E1. apply digit_inj in E1; lia.
    + apply pair3 in P as (<- & <- & <-). apply pair3 in P' as (<- & <- & <-).
      destruct (strip0_lead k t Hk) as (u & U). destruct (strip0_lead k' t' Hk') as (u' & U').
      rewrite Ds, Ds', !strip0_zeros in E2 by (rewrite ?U, ?U'; discriminate).
      assert (Nz : forall j, 1 <= j < 10 -> digit j <> "0"%char).
      { intros j Hj Q. change (digit j = digit 0) in Q. apply digit_inj in Q; lia. }
      pose proof E2 as E4. rewrite U, U' in E4. apply repeat_lead in E4 as [E4 _]; auto.
      assert (X = X') by lia. subst X'. split; auto.
      apply digit_string_inj; try lia. rewrite Ds, Ds'.
      apply app_inv_head in E2. apply strip0_inj; auto.
      apply (f_equal (@length ascii)) in Ds, Ds'. rewrite digit_string_len in Ds, Ds'. congruence.
Qed.

(** The sign is readable too. *)
Lemma digs_not_minus s : digs s -> forall t, s <> "-"%char :: t.
Proof. intros H t ->. inversion H; discriminate. Qed.
Lemma format_no_minus d X : forall t, 100000 <= d < 1000000 -> format_g d X <> "-"%char :: t.
Proof.
  intros t H E. rewrite format_parts in E. destruct (parts d X) as [[ip fp] sx] eqn:P.
  destruct (parts_ok _ _ _ _ _ P) as (A1 & _ & _).
  assert (N : ip <> []).
  { unfold parts in P. destruct ((X <? -4) || (6 <=? X)); [|destruct (Z.leb_spec 0 X)]; apply pair3 in P as (<- & _ & _).
    - rewrite digit_string_eq. discriminate.
    - rewrite digit_string_eq. replace (Z.to_nat (X + 1)) with (S (Z.to_nat X)) by lia. discriminate.
    - discriminate. }
  destruct ip as [|c ip]; [contradiction|]. inversion A1 as [|? ? A _]; subst.
  assert (Q : exists r, with_point (c :: ip) fp ++ sx = c :: r).
  { unfold with_point. destruct (strip0 fp); eexists; reflexivity. }
  destruct Q as (r & Q). rewrite Q in E. injection E as -> _. discriminate.
Qed.
