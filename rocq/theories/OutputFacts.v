(** * Facts about what calc_J prints *)
From Verif Require Import ArgsFacts.
From Verif Require Import CatnipProps.
From Verif Require Export MainRun OutputSpec.
From Verif Require Export StrSpec StrModel.
Open Scope Z_scope.

(** ** lines *)
Lemma split_nl (a b r s : str) : ~ In nl a -> ~ In nl b -> a ++ nl :: r = b ++ nl :: s -> a = b /\ r = s.
Proof.
  revert b. induction a as [|x a IH]; intros [|y b] Ha Hb H; cbn [app] in H.
  - injection H as ->. auto.
  - injection H as H1 H2. exfalso. apply Hb. left. auto.
  - injection H as H1 H2. exfalso. apply Ha. left. auto.
  - injection H as -> H2. destruct (IH b) as [-> ->]; auto; intros I; [apply Ha|apply Hb]; right; auto.
Qed.
Lemma lines_prefix (l l' : list str) : length l = length l' -> (forall x, In x l -> ~ In nl x) -> (forall x, In x l' -> ~ In nl x) ->
  forall r r', screen (l ++ r) = screen (l' ++ r') -> l = l'.
Proof.
  revert l'. induction l as [|a l IH]; intros [|b l'] L H H' r r' E; try discriminate; auto.
  unfold screen in E. cbn [app map concat] in E. rewrite <- !app_assoc in E. cbn [app] in E.
  apply split_nl in E as [-> E]; [|apply H; left; auto|apply H'; left; auto]. f_equal.
  injection L as L. apply (IH l' L) with (r := r) (r' := r'); auto; intros x I; [apply H|apply H']; right; auto.
Qed.

(** ** numbers *)
Lemma dec_nonneg_inj a b : 0 <= a -> 0 <= b -> dec_nonneg a = dec_nonneg b -> a = b.
Proof.
  assert (V : forall z, 0 <= z -> digits_val 0 (dec_nonneg z) = z).
  { intros z H. destruct (dec_nonneg_digits z H) as (ds & E & _ & F & V). rewrite E, <- (app_nil_r (map digit ds)), digits_val_map by auto. cbn [digits_val]. exact V. }
  intros Ha Hb E. rewrite <- (V a Ha), <- (V b Hb), E. reflexivity.
Qed.
Lemma dec_nonneg_no_nl z : 0 <= z -> ~ In nl (dec_nonneg z).
Proof.
  intros H I. destruct (dec_nonneg_digits z H) as (ds & E & _ & F & _). rewrite E in I. apply in_map_iff in I as (d & Ed & I).
  rewrite Forall_forall in F. destruct (digit_facts d (F d I)) as (E1 & _). rewrite Ed in E1. discriminate.
Qed.
(** what follows the orbital type *)
Definition offset_text (n : Z) : str := if n =? 0 then [] else if 0 <? n then "+"%char :: dec_nonneg n else "-"%char :: dec_nonneg (- n).
Lemma orbital_offset ty n : orbital_text ty n = ty ++ offset_text n.
Proof.
  unfold orbital_text, offset_text, dec. destruct (Z.eqb_spec n 0); [rewrite app_nil_r; auto|]. destruct (Z.ltb_spec 0 n).
  - destruct (Z.ltb_spec n 0); [lia|]. reflexivity.
  - destruct (Z.ltb_spec n 0); [|lia]. reflexivity.
Qed.
Lemma offset_inj n n' : offset_text n = offset_text n' -> n = n'.
Proof.
  unfold offset_text. destruct (Z.eqb_spec n 0), (Z.eqb_spec n' 0), (Z.ltb_spec 0 n), (Z.ltb_spec 0 n'); intros Q; try discriminate; try lia; try congruence.
  - apply (f_equal (@tl ascii)) in Q. cbn [tl] in Q. apply dec_nonneg_inj in Q; lia.
  - apply (f_equal (@tl ascii)) in Q. cbn [tl] in Q. apply dec_nonneg_inj in Q; lia.
Qed.
Lemma offset_no_nl n : ~ In nl (offset_text n).
Proof.
  unfold offset_text. destruct (Z.eqb_spec n 0); [intros []|]. destruct (Z.ltb_spec 0 n) as [X|X]; intros [Q|Q]; try discriminate; revert Q; apply dec_nonneg_no_nl; lia.
Qed.
Lemma no_nl_app (a b : str) : ~ In nl a -> ~ In nl b -> ~ In nl (a ++ b).
Proof. intros Ha Hb I. apply in_app_or in I as [I|I]; auto. Qed.
Lemma nl_b (s : str) : existsb (Ascii.eqb nl) s = false -> ~ In nl s.
Proof. intros H I. assert (X : existsb (Ascii.eqb nl) s = true) by (apply existsb_exists; exists nl; split; auto; apply Ascii.eqb_refl). congruence. Qed.
Definition known_type (ty : str) : Prop := ty = $"HOMO" \/ ty = $"LUMO".
Lemma orbital_text_inj ty ty' n n' : known_type ty -> known_type ty' -> orbital_text ty n = orbital_text ty' n' -> ty = ty' /\ n = n'.
Proof.
  rewrite !orbital_offset. intros [->| ->] [->| ->] E.
  - split; [reflexivity|]. apply offset_inj. exact (app_inv_head _ _ _ E).
  - exfalso. apply (f_equal (hd " "%char)) in E. discriminate E.
  - exfalso. apply (f_equal (hd " "%char)) in E. discriminate E.
  - split; [reflexivity|]. apply offset_inj. exact (app_inv_head _ _ _ E).
Qed.

(** ** what a successful run says about the request *)
Lemma read_loop_keeps {M} (I : M -> Prop) headers (rd : nat -> str -> fstate -> M -> outcome (fstate * M)) :
  (forall n tag f m f' m', I m -> rd n tag f m = Ok (f', m') -> I m') ->
  forall fuel f line m f' m', I m -> read_loop headers rd fuel f line m = Ok (f', m') -> I m'.
Proof.
  intros Hrd. induction fuel as [|n IH]; intros f line m f' m' Hm H; cbn [read_loop] in H; [discriminate|].
  destruct (getl f line) as [line1 f1]. destruct (s_fail (fid f1)).
  - apply (f_equal (fun o => match o with Ok x => snd x | _ => m' end)) in H. cbn [snd] in H. subst. auto.
  - apply bind_ok in H as ([f2 m2] & H1 & H). cbv zeta in H. apply IH in H; auto.
    destruct (startSection_ headers line1); [eapply Hrd; eauto|]. apply (f_equal (fun o => match o with Ok x => snd x | _ => m2 end)) in H1. cbn [snd] in H1. subst. auto.
Qed.
Definition spin_keys {V} (m : smap V) : Prop := forall k v, m_find k m = Some v -> is_spin k.
Lemma spin_keys_set {V} k (v : V) m : is_spin k -> spin_keys m -> spin_keys (m_set k v m).
Proof. intros Hk Hm k' v'. rewrite find_set. destruct (str_dec k' k) as [->|]; [auto|]. apply Hm. Qed.
(** whatever the file contains: a pun reader holds coefficients of the spins Alpha and Beta only *)
Lemma pun_spins N disk fuel name r : open_pun N disk fuel name = Ok r -> spin_keys (coefs N r).
Proof.
  intros H. apply bind_ok in H as (r0 & H0 & H). unfold pun_read in H. apply bind_ok in H as ([pos m] & H1 & H).
  apply (f_equal (fun o => match o with Ok x => coefs N x | _ => m end)) in H. cbn [coefs snd] in H. subst m.
  unfold read in H1. destruct (disk (pr_name N r0)) as [content|]; [|discriminate].
  apply bind_ok in H1 as ([f' m'] & H1 & H2). apply (f_equal (fun o => match o with Ok x => snd x | _ => m' end)) in H2. cbn [snd] in H2. subst m'.
  refine (read_loop_keeps spin_keys _ _ _ _ _ _ _ _ _ _ H1).
  - intros n tag f m f1 m1 Hm E. unfold pun_section in E.
    destruct (str_eqb tag $"CoefAlpha"); unfold ReadCoef in E; apply bind_ok in E as ([f2 vv] & _ & E); cbv zeta in E; apply bind_ok in E as (mm & _ & E);
      apply (f_equal (fun o => match o with Ok x => snd x | _ => m1 end)) in E; cbn [snd] in E; subst m1; apply spin_keys_set; auto; [left|right]; reflexivity.
  - unfold PunReader_new in H0. apply bind_ok in H0 as (ext & _ & H0). destruct (negb (str_eqb ext $".pun")); [discriminate|].
    apply bind_ok in H0 as (u & _ & H0). apply (f_equal (fun o => match o with Ok x => coefs N x | _ => [] end)) in H0. cbn [coefs] in H0. rewrite <- H0. intros k v X. discriminate X.
Qed.
Lemma coefs_spin N disk fuel name r k m : open_pun N disk fuel name = Ok r -> getCoefsMatrix N r k = Ok m -> is_spin k.
Proof. intros H G. unfold getCoefsMatrix in G. destruct (m_find k (coefs N r)) eqn:F; [|discriminate]. exact (pun_spins N disk fuel name r H k _ F). Qed.
Lemma selected_type {T} (A : arith T) m c o ty n r : select_row A m c o ty n = Ok r -> known_type ty.
Proof.
  unfold select_row. intros H. destruct (str_eqb ty sHOMO) eqn:E1; [left; apply str_eqb_eq in E1; exact E1|].
  destruct (str_eqb ty sLUMO) eqn:E2; [right; apply str_eqb_eq in E2; exact E2|]. discriminate.
Qed.
Lemma unscramble_flag {T} (A : arith T) lab fuel tc c1 c2 cP bP b2 tc' : tc_unscramble A lab fuel tc c1 c2 cP bP b2 = Ok tc' -> tc_unscrambled tc' = true.
Proof.
  unfold tc_unscramble. intros H. destruct (tc_cp tc).
  - do 5 (apply bind_ok in H as (? & _ & H)). apply (f_equal (fun o => match o with Ok x => tc_unscrambled x | _ => true end)) in H. exact (eq_sym H).
  - do 4 (apply bind_ok in H as (? & _ & H)). apply (f_equal (fun o => match o with Ok x => tc_unscrambled x | _ => true end)) in H. exact (eq_sym H).
Qed.
Lemma constructor_flag {T} (A : arith T) (m1 m2 P : mat T) o1 o2 (S0 OE : mat T) cp (tc : TC) : TransferComplex m1 m2 P o1 o2 S0 OE cp = Ok tc -> tc_unscrambled tc = false /\ tc_cp tc = cp /\
  (if cp then cols m1 = cols P /\ cols m2 = cols P else cols m1 + cols m2 <= cols P).
Proof.
  unfold TransferComplex. intros H. destruct (cols S0 =? cols P) eqn:E0; cbn [negb] in H; [|discriminate].
  apply bind_ok in H as (u & H0 & H). split; [|split].
  - apply (f_equal (fun o => match o with Ok x => tc_unscrambled x | _ => false end)) in H. exact (eq_sym H).
  - apply (f_equal (fun o => match o with Ok x => tc_cp x | _ => cp end)) in H. exact (eq_sym H).
  - destruct cp.
    + destruct (Z.eqb_spec (cols m1) (cols P)); cbn [negb] in H0; [|discriminate]. destruct (Z.eqb_spec (cols m2) (cols P)); cbn [negb] in H0; [|discriminate]. auto.
    + apply bind_ok in H0 as (t & Ht & H0). unfold iadd, ichk in Ht. destruct (is_intb (cols m1 + cols m2)); [|discriminate]. injection Ht as <-.
      destruct (Z.ltb_spec (cols P) (cols m1 + cols m2)); [discriminate|]. auto.
Qed.
(** everything a successful run tells *)
Lemma run_facts N A lab disk fuel p q : run_job_with N A lab disk all_numbers fuel p = Ok q ->
  exists R, readers_hold N disk fuel p R /\ (is_spin (spinP p) /\ is_spin (spin1 p) /\ is_spin (spin2 p)) /\ (known_type (orb_type1 p) /\ known_type (orb_type2 p)) /\
    fst (fst q) = p /\ snd (fst q) = some_basis N R /\
    (if counterPoise p then cols (m_1 N R) = cols (m_P N R) /\ cols (m_2 N R) = cols (m_P N R) else cols (m_1 N R) + cols (m_2 N R) <= cols (m_P N R)).
Proof.
  intros H. unfold run_job_with in H. apply bind_ok in H as (prP & X1 & H). apply bind_ok in H as (pr1 & X2 & H). apply bind_ok in H as (pr2 & X3 & H).
  apply bind_ok in H as (lrP & X4 & H). apply bind_ok in H as (lr1 & X5 & H). apply bind_ok in H as (lr2 & X6 & H). unfold compute_with in H.
  apply bind_ok in H as (mS & Y1 & H). apply bind_ok in H as (mP & Y2 & H). apply bind_ok in H as (eP & Y3 & H). apply bind_ok in H as (? & _ & H).
  apply bind_ok in H as (h1 & Y4 & H). apply bind_ok in H as (m1 & Y5 & H). apply bind_ok in H as (e1 & Y6 & H). apply bind_ok in H as (? & _ & H).
  apply bind_ok in H as (h2 & Y7 & H). apply bind_ok in H as (m2 & Y8 & H). apply bind_ok in H as (e2 & Y9 & H).
  exists (mkReading N m1 m2 mP mS e1 e2 eP h1 h2 (getCoords N lr1) (getCoords N lr2) (getCoords N lrP) (getBasisFuncCount N lr1) (getBasisFuncCount N lr2) (getBasisFuncCount N lrP)).
  unfold some_basis. cbn [m_1 m_2 m_P m_S e_1 e_2 e_P h_1 h_2 x_1 x_2 x_P b_1 b_2 b_P].
  split; [exists pr1, pr2, prP, lr1, lr2, lrP; cbn [m_1 m_2 m_P m_S e_1 e_2 e_P h_1 h_2 x_1 x_2 x_P b_1 b_2 b_P]; repeat (split; [assumption || reflexivity|]); reflexivity|].
  split; [split; [exact (coefs_spin N disk fuel _ _ _ _ X1 Y2)|split; [exact (coefs_spin N disk fuel _ _ _ _ X2 Y5)|exact (coefs_spin N disk fuel _ _ _ _ X3 Y8)]]|].
  cbv zeta in H. apply bind_ok in H as (? & _ & H). apply bind_ok in H as (? & _ & H). apply bind_ok in H as (? & _ & H). apply bind_ok in H as (? & _ & H).
  apply bind_ok in H as (tc0 & Hc & H). apply (constructor_flag A) in Hc as (U0 & _ & Hsz). apply bind_ok in H as (tc1 & Hu & H).
  assert (Q : tc_unscrambled tc1 = negb (length (getBasisFuncCount N lr1) =? 0)%nat && negb (length (getBasisFuncCount N lr2) =? 0)%nat && negb (length (getBasisFuncCount N lrP) =? 0)%nat).
  { destruct (negb (length (getBasisFuncCount N lr1) =? 0)%nat && negb (length (getBasisFuncCount N lr2) =? 0)%nat && negb (length (getBasisFuncCount N lrP) =? 0)%nat).
    - exact (unscramble_flag A lab fuel _ _ _ _ _ _ _ Hu).
    - apply (f_equal (fun o => match o with Ok x => tc_unscrambled x | _ => false end)) in Hu. rewrite <- U0. exact (eq_sym Hu). }
  clear Hu. unfold calcJ_with in H. apply bind_ok in H as (? & _ & H). apply bind_ok in H as (? & _ & H). apply bind_ok in H as (t1 & T1 & H). apply bind_ok in H as (n1 & _ & H).
  apply bind_ok in H as (c1 & S1 & H). apply bind_ok in H as (t2 & T2 & H). apply bind_ok in H as (n2 & _ & H). apply bind_ok in H as (c2 & S2 & H).
  assert (E1 : t1 = orb_type1 p) by (change (Ok (orb_type1 p) = Ok t1) in T1; apply (f_equal (fun o => match o with Ok x => x | _ => [] end)) in T1; exact (eq_sym T1)).
  assert (E2 : t2 = orb_type2 p) by (change (Ok (orb_type2 p) = Ok t2) in T2; apply (f_equal (fun o => match o with Ok x => x | _ => [] end)) in T2; exact (eq_sym T2)).
  apply selected_type in S1. apply selected_type in S2. rewrite E1 in S1. rewrite E2 in S2. split; [auto|].
  rewrite <- Q. clear - H Hsz. unfold transfer_with in H.
  repeat (apply bind_ok in H as (? & _ & H)).
  apply (f_equal (fun o => match o with Ok x => fst x | _ => fst q end)) in H. cbn [fst all_numbers] in H. rewrite <- H. cbn [fst snd]. auto.
Qed.
