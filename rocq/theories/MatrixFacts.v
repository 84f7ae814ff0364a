(** * Lemmas about the matrix model *)
From Verif Require Export MatrixSpec.
From Coq Require Import ZifyBool.

Definition pos3 (C S r c s : Z) : Z := (r - 1) * C * S + (c - 1) * S + s - 1.

Lemma pos3_range R C S r c s :
  inside R C S r c s -> 0 <= pos3 C S r c s < R * C * S.
Proof.
  intros (Hr & Hc & Hs); unfold pos3.
  assert (0 <= (r - 1) * C <= (R - 1) * C) by nia.
  assert (0 <= (r - 1) * C * S <= (R - 1) * C * S) by nia.
  assert (0 <= (c - 1) * S <= (C - 1) * S) by nia.
  nia.
Qed.

Lemma pos3_inj C S r c s r' c' s' :
  1 <= c <= C -> 1 <= c' <= C -> 1 <= s <= S -> 1 <= s' <= S ->
  pos3 C S r c s = pos3 C S r' c' s' -> r = r' /\ c = c' /\ s = s'.
Proof.
  unfold pos3; intros Hc Hc' Hs Hs' E.
  assert (E1 : ((r - 1) * C + (c - 1)) * S + (s - 1)
             = ((r' - 1) * C + (c' - 1)) * S + (s' - 1)) by lia.
  assert (A : (r - 1) * C + (c - 1) = (r' - 1) * C + (c' - 1) /\ s - 1 = s' - 1).
  { apply (Z.div_mod_unique S); lia. }
  destruct A as [A Bs].
  assert (D : r - 1 = r' - 1 /\ c - 1 = c' - 1).
  { apply (Z.div_mod_unique C); lia. }
  lia.
Qed.

Lemma flat_ok R C S r c s :
  inside R C S r c s -> R * C * S <= INT_MAX ->
  flat C S r c s = Ok (pos3 C S r c s).
Proof.
  intros H Hmax. pose proof (pos3_range _ _ _ _ _ _ H) as HP.
  destruct H as (Hr & Hc & Hs).
  assert (Q1 : 1 <= R * C) by nia. assert (Q2 : R <= R * C) by nia. assert (Q3 : C <= R * C) by nia.
  assert (Q4 : R * C <= R * C * S) by nia. assert (Q5 : S <= R * C * S) by nia.
  assert (K1 : R <= INT_MAX) by lia.
  assert (K2 : C <= INT_MAX) by lia.
  assert (K3 : S <= INT_MAX) by lia.
  assert (K4 : 0 <= (r - 1) * C <= R * C) by nia.
  assert (K5 : 0 <= (r - 1) * C * S <= INT_MAX) by nia.
  assert (K6 : 0 <= (c - 1) * S) by nia.
  unfold pos3 in *.
  assert (MM : INT_MAX = 2147483647) by reflexivity.
  assert (MI : INT_MIN = -2147483648) by reflexivity.
  unfold flat, isub, imul, iadd.
  repeat (rewrite ichk_ok by (unfold is_int; lia); cbn [bind]).
  reflexivity.
Qed.

Section Facts.
Context {T : Type}.
Implicit Types (m : mat T) (f g : Z -> Z -> Z -> T).

(** ** Raw cells *)

Lemma wr_ok (l : list (option T)) k v :
  0 <= k < Z.of_nat (length l) -> wr l k v = Ok (upd l (Z.to_nat k) (Some v)).
Proof. intros H; unfold wr. destruct (Z.leb_spec 0 k); destruct (Z.ltb_spec k (Z.of_nat (length l))); simpl; auto; lia. Qed.

Lemma wr_bad (l : list (option T)) k v :
  ~ (0 <= k < Z.of_nat (length l)) -> wr l k v = Undef OutOfBounds.
Proof. intros H; unfold wr. destruct (Z.leb_spec 0 k); destruct (Z.ltb_spec k (Z.of_nat (length l))); simpl; auto; lia. Qed.

Lemma rd_nth (l : list (option T)) k :
  0 <= k < Z.of_nat (length l) ->
  rd l k = match nth_error l (Z.to_nat k) with
           | Some (Some v) => Ok v | Some None => Undef Uninitialised
           | None => Undef OutOfBounds end.
Proof. intros H; unfold rd. destruct (Z.leb_spec 0 k); destruct (Z.ltb_spec k (Z.of_nat (length l))); simpl; auto; lia. Qed.

Lemma rd_upd_eq (l : list (option T)) k v :
  0 <= k < Z.of_nat (length l) -> rd (upd l (Z.to_nat k) (Some v)) k = Ok v.
Proof.
  intros H. rewrite rd_nth by (rewrite length_upd; lia).
  rewrite nth_error_upd_eq by lia. reflexivity.
Qed.

Lemma rd_upd_ne (l : list (option T)) k k' v :
  0 <= k -> k <> k' -> rd (upd l (Z.to_nat k) (Some v)) k' = rd l k'.
Proof.
  intros H0 H. unfold rd. rewrite length_upd.
  destruct (Z.leb_spec 0 k'); destruct (Z.ltb_spec k' (Z.of_nat (length l))); simpl; auto.
  rewrite nth_error_upd_ne; auto. lia.
Qed.

(** [cells_of l N h]: block of [N] cells; [h k] = content of cell [k]. *)
Definition cells_are (l : list (option T)) (N : Z) (h : Z -> option T) : Prop :=
  Z.of_nat (length l) = N /\ forall k, 0 <= k < N -> nth_error l (Z.to_nat k) = Some (h k).

Lemma new_cells_are n : 0 <= n -> exists l : list (option T),
  new_cells n = Ok l /\ cells_are l n (fun _ => None).
Proof.
  intros H; unfold new_cells. destruct (Z.ltb_spec n 0); [lia|].
  eexists; split; [reflexivity|]. split; [rewrite repeat_length; lia|].
  intros k Hk. apply nth_error_repeat. lia.
Qed.

Lemma cells_wr l N h k v :
  cells_are l N h -> 0 <= k < N -> exists l', wr l k v = Ok l' /\
  cells_are l' N (fun k' => if k' =? k then Some v else h k').
Proof.
  intros [HL HN] Hk. rewrite wr_ok by lia. eexists; split; [reflexivity|].
  split; [rewrite length_upd; lia|].
  intros k' Hk'. destruct (Z.eqb_spec k' k) as [->|Hne].
  - apply nth_error_upd_eq; lia.
  - rewrite nth_error_upd_ne by lia. auto.
Qed.

Lemma cells_rd l N h k v :
  cells_are l N h -> 0 <= k < N -> h k = Some v -> rd l k = Ok v.
Proof. intros [HL HN] Hk E. rewrite rd_nth by lia. rewrite HN, E by lia. reflexivity. Qed.

(** A block-level action that writes [g] exactly on the domain [P]. *)
Definition cwrites (N : Z) (P : Z -> Prop) (g : Z -> T)
    (act : list (option T) -> outcome (list (option T))) : Prop :=
  forall l h, cells_are l N h -> exists l' h', act l = Ok l' /\ cells_are l' N h' /\
    forall k, 0 <= k < N -> (P k -> h' k = Some (g k)) /\ (~ P k -> h' k = h k).

Lemma cwrites_wr N k (g : Z -> T) : 0 <= k < N ->
  cwrites N (fun k' => k' = k) g (fun l => wr l k (g k)).
Proof.
  intros Hk l h Hl. destruct (cells_wr l N h k (g k) Hl Hk) as (l' & E & H').
  eexists _, _; split; [exact E|]; split; [exact H'|].
  intros k' Hk'; simpl. destruct (Z.eqb_spec k' k) as [->|]; split; intros; auto; contradiction.
Qed.

Lemma cwrites_for N (P : Z -> Z -> Prop) (g : Z -> T) lo hi body :
  (forall i k, lo <= i <= hi -> 0 <= k < N -> P i k \/ ~ P i k) ->
  (forall i, lo <= i <= hi -> cwrites N (P i) g (body i)) ->
  cwrites N (fun k => exists i, lo <= i <= hi /\ P i k) g (for_up lo hi body).
Proof.
  intros Hdec Hb l h Hl.
  destruct (Z_le_gt_dec lo (hi + 1)) as [Hle|Hgt].
  2:{ rewrite for_up_empty by lia. exists l, h; repeat split; auto; try apply Hl.
      intros (i & Hi & _); lia. }
  destruct (for_up_inv (fun i l => exists h', cells_are l N h' /\
     forall k, 0 <= k < N -> ((exists i', lo <= i' < i /\ P i' k) -> h' k = Some (g k)) /\
       (~ (exists i', lo <= i' < i /\ P i' k) -> h' k = h k)) body lo hi l Hle)
    as (l' & E & h' & Hl' & HH).
  - exists h; split; auto. intros k Hk; split; auto. intros (i' & Hi & _); lia.
  - intros i l0 Hi (h0 & Hl0 & H0).
    destruct (Hb i Hi l0 h0 Hl0) as (l1 & h1 & E1 & Hl1 & H1).
    exists l1; split; auto. exists h1; split; auto.
    intros k Hk. destruct (H1 k Hk) as [A B]. destruct (H0 k Hk) as [A0 B0].
    split.
    + intros (i' & Hi' & HP). destruct (Hdec i k Hi Hk) as [D|D]; auto.
      rewrite B by auto. apply A0. exists i'; split; auto.
      destruct (Z.eq_dec i' i); [subst; contradiction|lia].
    + intros Hn. rewrite B, B0; auto.
      * intros (i' & Hi' & HP); apply Hn; exists i'; split; auto; lia.
      * intros HP; apply Hn; exists i; split; auto; lia.
  - exists l', h'; split; auto; split; auto. intros k Hk.
    destruct (HH k Hk) as [A B]. split.
    + intros (i & Hi & HP); apply A; exists i; split; auto; lia.
    + intros Hn; apply B; intros (i & Hi & HP); apply Hn; exists i; split; auto; lia.
Qed.

(** ** Elements of well-formed matrices *)

Lemma index_ok m r c s : wf m -> inside (rows m) (cols m) (shel m) r c s ->
  index m r c s = Ok (pos3 (cols m) (shel m) r c s) /\
  0 <= pos3 (cols m) (shel m) r c s < Z.of_nat (length (elem m)).
Proof.
  intros [(?&?&?&HM) HL] Hin. unfold index. rewrite (flat_ok _ _ _ _ _ _ Hin HM).
  split; auto. rewrite HL. apply pos3_range; auto.
Qed.

Lemma get_elem3_in m r c s : inside (rows m) (cols m) (shel m) r c s ->
  get_elem3 m r c s = load m r c s.
Proof.
  intros (Hr & Hc & Hs); unfold get_elem3.
  destruct (Z.ltb_spec r 1); [lia|]. destruct (Z.ltb_spec (rows m) r); [lia|].
  destruct (Z.ltb_spec c 1); [lia|]. destruct (Z.ltb_spec (cols m) c); [lia|].
  destruct (Z.ltb_spec s 1); [lia|]. destruct (Z.ltb_spec (shel m) s); [lia|]. auto.
Qed.

Lemma get_elem3_out m r c s : ~ inside (rows m) (cols m) (shel m) r c s ->
  get_elem3 m r c s = Exit 1.
Proof.
  intros H; unfold get_elem3, inside in *.
  destruct (Z.ltb_spec r 1); auto. destruct (Z.ltb_spec (rows m) r); auto.
  destruct (Z.ltb_spec c 1); auto. destruct (Z.ltb_spec (cols m) c); auto.
  destruct (Z.ltb_spec s 1); auto. destruct (Z.ltb_spec (shel m) s); auto. lia.
Qed.

Lemma set_elem3_in v m r c s : inside (rows m) (cols m) (shel m) r c s ->
  set_elem3 v r c s m = store v r c s m.
Proof.
  intros (Hr & Hc & Hs); unfold set_elem3.
  destruct (Z.ltb_spec (rows m) r); [lia|]. destruct (Z.ltb_spec r 1); [lia|].
  destruct (Z.ltb_spec (cols m) c); [lia|]. destruct (Z.ltb_spec c 1); [lia|].
  destruct (Z.ltb_spec (shel m) s); [lia|]. destruct (Z.ltb_spec s 1); [lia|]. auto.
Qed.

Lemma set_elem3_out v m r c s : ~ inside (rows m) (cols m) (shel m) r c s ->
  set_elem3 v r c s m = Exit 1.
Proof.
  intros H; unfold set_elem3, inside in *.
  destruct (Z.ltb_spec (rows m) r); auto. destruct (Z.ltb_spec r 1); auto.
  destruct (Z.ltb_spec (cols m) c); auto. destruct (Z.ltb_spec c 1); auto.
  destruct (Z.ltb_spec (shel m) s); auto. destruct (Z.ltb_spec s 1); auto. lia.
Qed.

Lemma store_ok m v r c s : wf m -> inside (rows m) (cols m) (shel m) r c s ->
  exists m', store v r c s m = Ok m' /\ wf m' /\ rows m' = rows m /\ cols m' = cols m /\
    shel m' = shel m /\ length (elem m') = length (elem m) /\
    forall r' c' s', inside (rows m) (cols m) (shel m) r' c' s' ->
      load m' r' c' s' = if (r' =? r) && (c' =? c) && (s' =? s) then Ok v else load m r' c' s'.
Proof.
  intros Hwf Hin. destruct (index_ok m r c s Hwf Hin) as [EI RI].
  unfold store. rewrite EI; cbn [bind]. rewrite wr_ok by lia. cbn [bind].
  eexists; split; [reflexivity|]. simpl.
  split; [|split; [|split; [|split; [|split]]]]; auto.
  - destruct Hwf as [HF HL]; split; simpl; auto. rewrite length_upd; auto.
  - apply length_upd.
  - intros r' c' s' Hin'. destruct (index_ok m r' c' s' Hwf Hin') as [EI' RI'].
    unfold load, index in *; simpl. rewrite EI'; cbn [bind].
    destruct Hin as (Hr & Hc & Hs), Hin' as (Hr' & Hc' & Hs').
    destruct (Z.eqb_spec r' r) as [->|Nr]; simpl.
    1: destruct (Z.eqb_spec c' c) as [->|Nc]; simpl.
    1: destruct (Z.eqb_spec s' s) as [->|Ns]; simpl.
    1: apply rd_upd_eq; lia.
    all: apply rd_upd_ne; [lia|intros E; apply pos3_inj in E; try lia].
Qed.

Lemma set_elem3_get m v r c s : wf m -> inside (rows m) (cols m) (shel m) r c s ->
  exists m', set_elem3 v r c s m = Ok m' /\ wf m' /\ rows m' = rows m /\ cols m' = cols m /\
    shel m' = shel m /\
    forall r' c' s',
      get_elem3 m' r' c' s' =
        if (r' =? r) && (c' =? c) && (s' =? s) then Ok v else get_elem3 m r' c' s'.
Proof.
  intros Hwf Hin. rewrite set_elem3_in by auto.
  destruct (store_ok m v r c s Hwf Hin) as (m' & E & Hwf' & Er & Ec & Es & _ & HL).
  exists m'; repeat (split; auto). intros r' c' s'.
  destruct (Z_le_dec 1 r') as [A1|A1]; [destruct (Z_le_dec r' (rows m)) as [A2|A2];
   [destruct (Z_le_dec 1 c') as [A3|A3]; [destruct (Z_le_dec c' (cols m)) as [A4|A4];
   [destruct (Z_le_dec 1 s') as [A5|A5]; [destruct (Z_le_dec s' (shel m)) as [A6|A6]|]|]|]|]|].
  1: { assert (Hin' : inside (rows m) (cols m) (shel m) r' c' s') by (unfold inside; lia).
       rewrite !get_elem3_in; auto. rewrite Er, Ec, Es; auto. }
  all: rewrite (get_elem3_out m') by (rewrite Er, Ec, Es; unfold inside; lia);
       rewrite (get_elem3_out m) by (unfold inside; lia);
       destruct (Z.eqb_spec r' r); destruct (Z.eqb_spec c' c); destruct (Z.eqb_spec s' s); simpl; auto;
       subst; destruct Hin as (?&?&?); lia.
Qed.

(** Shorter overloads. *)
Lemma get_elem2_eq m r c : 1 <= shel m -> get_elem2 m r c = get_elem3 m r c 1.
Proof.
  intros H; unfold get_elem2, get_elem3. cbn. destruct (Z.ltb_spec (shel m) 1); [lia|auto].
Qed.
Lemma set_elem2_eq v m r c : 1 <= shel m -> set_elem2 v r c m = set_elem3 v r c 1 m.
Proof.
  intros H; unfold set_elem2, set_elem3. cbn. destruct (Z.ltb_spec (shel m) 1); [lia|auto].
Qed.
Lemma get_elem1_eq m r : 1 <= cols m -> 1 <= shel m -> get_elem1 m r = get_elem3 m r 1 1.
Proof.
  intros Hc H; unfold get_elem1, get_elem3. cbn.
  destruct (Z.ltb_spec (cols m) 1); [lia|]. destruct (Z.ltb_spec (shel m) 1); [lia|auto].
Qed.
Lemma set_elem1_eq v m r : 1 <= cols m -> 1 <= shel m -> set_elem1 v r m = set_elem3 v r 1 1 m.
Proof.
  intros Hc H; unfold set_elem1, set_elem3. cbn.
  destruct (Z.ltb_spec (cols m) 1); [lia|]. destruct (Z.ltb_spec (shel m) 1); [lia|auto].
Qed.

(** ** denotes *)

Lemma denotes_wf m R C S f : denotes m R C S f -> wf m.
Proof. intros [H _]; auto. Qed.

Lemma denotes_get3 m R C S f r c s :
  denotes m R C S f -> inside R C S r c s -> get_elem3 m r c s = Ok (f r c s).
Proof. intros (_ & _ & _ & _ & H); auto. Qed.

Lemma denotes_get2 m R C S f r c :
  denotes m R C S f -> inside R C S r c 1 -> get_elem2 m r c = Ok (f r c 1).
Proof.
  intros H Hin. rewrite get_elem2_eq. eapply denotes_get3; eauto.
  destruct H as (_ & _ & _ & -> & _). unfold inside in Hin; lia.
Qed.

Lemma denotes_load m R C S f r c s :
  denotes m R C S f -> inside R C S r c s -> load m r c s = Ok (f r c s).
Proof.
  intros (_ & <- & <- & <- & H) Hin. rewrite <- get_elem3_in; auto.
Qed.

Lemma denotes_ext m R C S f g :
  denotes m R C S f -> (forall r c s, inside R C S r c s -> f r c s = g r c s) ->
  denotes m R C S g.
Proof.
  intros (H1 & H2 & H3 & H4 & H5) E; repeat (split; auto).
  intros r c s Hin. rewrite <- E; auto.
Qed.

Lemma denotes_set3 m R C S f v r c s :
  denotes m R C S f -> inside R C S r c s ->
  exists m', set_elem3 v r c s m = Ok m' /\
    denotes m' R C S (fun r' c' s' => if (r' =? r) && (c' =? c) && (s' =? s) then v else f r' c' s').
Proof.
  intros (Hw & <- & <- & <- & H) Hin.
  destruct (set_elem3_get m v r c s Hw Hin) as (m' & E & Hw' & Er & Ec & Es & HG).
  exists m'; split; auto. repeat (split; auto).
  intros r' c' s' Hin'. rewrite HG.
  destruct ((r' =? r) && (c' =? c) && (s' =? s)); auto.
Qed.

Lemma denotes_store m R C S f v r c s :
  denotes m R C S f -> inside R C S r c s ->
  exists m', store v r c s m = Ok m' /\
    denotes m' R C S (fun r' c' s' => if (r' =? r) && (c' =? c) && (s' =? s) then v else f r' c' s').
Proof.
  intros H Hin. destruct (denotes_set3 m R C S f v r c s H Hin) as (m' & E & H').
  exists m'; split; auto. rewrite <- set_elem3_in; auto.
  destruct H as (_ & -> & -> & -> & _); auto.
Qed.

(** The blocks: from cells to denotes. *)
Lemma denotes_cells R C S l h (f : Z -> Z -> Z -> T) :
  fits R C S -> cells_are l (R * C * S) h ->
  (forall r c s, inside R C S r c s -> h (pos3 C S r c s) = Some (f r c s)) ->
  denotes (mkMat R C S l) R C S f.
Proof.
  intros HF [HL HN] H. split; [split; auto|]. repeat (split; auto).
  intros r c s Hin. rewrite get_elem3_in by auto. unfold load, index; simpl.
  destruct HF as (?&?&?&HM). rewrite (flat_ok _ _ _ _ _ _ Hin HM). cbn [bind].
  eapply cells_rd; [split; eauto|apply pos3_range; auto|auto].
Qed.

(** Two matrices with the same denotation are the same value, so [denotes]
    determines the object. *)
Lemma denotes_inj m m' R C S f : denotes m R C S f -> denotes m' R C S f -> m = m'.
Proof.
  intros (W & A1 & A2 & A3 & A) (W' & B1 & B2 & B3 & B).
  destruct m as [r c s l], m' as [r' c' s' l']; simpl in *; subst.
  f_equal. destruct W as [(?&?&?&HM) WL], W' as [_ WL']; simpl in *.
  apply nth_error_ext; intros n. 
  destruct (Nat.lt_ge_cases n (length l)) as [Hn|Hn].
  2:{ rewrite (proj2 (nth_error_None l n)), (proj2 (nth_error_None l' n)); auto; lia. }
  assert (HC : 0 < C) by nia. assert (HS : 0 < S) by nia.
  set (k := Z.of_nat n).
  assert (Hk : 0 <= k < R * C * S) by lia.
  set (q := k / S). assert (Hq : 0 <= q < R * C).
  { split; [apply Z.div_pos; lia|apply Z.div_lt_upper_bound; lia]. }
  assert (Hin : inside R C S (q / C + 1) (q mod C + 1) (k mod S + 1)).
  { pose proof (Z.mod_pos_bound q C HC). pose proof (Z.mod_pos_bound k S HS).
    assert (0 <= q / C < R).
    { split; [apply Z.div_pos; lia|apply Z.div_lt_upper_bound; lia]. }
    unfold inside; lia. }
  assert (Hp : pos3 C S (q / C + 1) (q mod C + 1) (k mod S + 1) = k).
  { unfold pos3. pose proof (Z.div_mod q C ltac:(lia)). pose proof (Z.div_mod k S ltac:(lia)).
    fold q in H3. nia. }
  pose proof (A _ _ _ Hin) as GA. pose proof (B _ _ _ Hin) as GB.
  rewrite get_elem3_in in GA by auto. rewrite get_elem3_in in GB by auto.
  unfold load, index in GA, GB; simpl in GA, GB.
  rewrite (flat_ok _ _ _ _ _ _ Hin HM) in GA, GB. cbn [bind] in GA, GB.
  rewrite Hp in GA, GB. rewrite rd_nth in GA by lia. rewrite rd_nth in GB by lia.
  subst k. rewrite Nat2Z.id in GA, GB.
  destruct (nth_error l n) as [[v|]|], (nth_error l' n) as [[v'|]|]; try discriminate. congruence.
Qed.

(** ** Actions that write a region of a matrix *)

Definition writes (R C S : Z) (P : Z -> Z -> Z -> Prop) (g : Z -> Z -> Z -> T)
    (act : mat T -> outcome (mat T)) : Prop :=
  forall m f, denotes m R C S f -> exists m' f', act m = Ok m' /\ denotes m' R C S f' /\
    forall r c s, inside R C S r c s ->
      (P r c s -> f' r c s = g r c s) /\ (~ P r c s -> f' r c s = f r c s).

Lemma writes_act_ext R C S P g a1 a2 :
  (forall m f, denotes m R C S f -> a1 m = a2 m) ->
  writes R C S P g a1 -> writes R C S P g a2.
Proof.
  intros E H m f Hm. rewrite <- (E m f Hm). apply H; auto.
Qed.

Lemma writes_iff R C S P Q g a :
  (forall r c s, inside R C S r c s -> (P r c s <-> Q r c s)) ->
  writes R C S P g a -> writes R C S Q g a.
Proof.
  intros E H m f Hm. destruct (H m f Hm) as (m' & f' & E1 & D & K).
  exists m', f'; repeat (split; auto); intros HQ; apply K; auto.
  - apply E; auto.
  - intros HP; apply HQ, E; auto.
Qed.

Lemma writes_set3 R C S r c s g v : inside R C S r c s -> v = g r c s ->
  writes R C S (fun r' c' s' => r' = r /\ c' = c /\ s' = s) g (set_elem3 v r c s).
Proof.
  intros Hin -> m f Hm. destruct (denotes_set3 m R C S f (g r c s) r c s Hm Hin) as (m' & E & H').
  eexists _, _; split; [exact E|]; split; [exact H'|].
  intros r' c' s' Hin'; simpl.
  destruct (Z.eqb_spec r' r); destruct (Z.eqb_spec c' c); destruct (Z.eqb_spec s' s); simpl;
    split; intros K; subst; auto; try (destruct K as (?&?&?); congruence); exfalso; apply K; auto.
Qed.

Lemma writes_store R C S r c s g v : inside R C S r c s -> v = g r c s ->
  writes R C S (fun r' c' s' => r' = r /\ c' = c /\ s' = s) g (store v r c s).
Proof.
  intros Hin Hv. eapply writes_act_ext; [|eapply writes_set3; eauto].
  intros m f (_ & <- & <- & <- & _). apply set_elem3_in; auto.
Qed.

Lemma writes_set2 R C S r c g v : inside R C S r c 1 -> v = g r c 1 ->
  writes R C S (fun r' c' s' => r' = r /\ c' = c /\ s' = 1) g (set_elem2 v r c).
Proof.
  intros Hin Hv. eapply writes_act_ext; [|eapply writes_set3; eauto].
  intros m f (_ & <- & <- & <- & _). symmetry; apply set_elem2_eq. unfold inside in Hin; lia.
Qed.

Lemma writes_bind R C S P g (x : outcome T) v k :
  x = Ok v -> writes R C S P g (k v) -> writes R C S P g (fun m => bind x (fun v => k v m)).
Proof. intros -> H; exact H. Qed.

Lemma writes_for R C S (P : Z -> Z -> Z -> Z -> Prop) g lo hi body :
  (forall i r c s, lo <= i <= hi -> inside R C S r c s -> P i r c s \/ ~ P i r c s) ->
  (forall i, lo <= i <= hi -> writes R C S (P i) g (body i)) ->
  writes R C S (fun r c s => exists i, lo <= i <= hi /\ P i r c s) g (for_up lo hi body).
Proof.
  intros Hdec Hb m f Hm.
  destruct (Z_le_gt_dec lo (hi + 1)) as [Hle|Hgt].
  2:{ rewrite for_up_empty by lia. exists m, f; repeat split; auto; try apply Hm.
      intros (i & Hi & _); lia. }
  destruct (for_up_inv (fun i m => exists f', denotes m R C S f' /\
     forall r c s, inside R C S r c s ->
       ((exists i', lo <= i' < i /\ P i' r c s) -> f' r c s = g r c s) /\
       (~ (exists i', lo <= i' < i /\ P i' r c s) -> f' r c s = f r c s)) body lo hi m Hle)
    as (m' & E & f' & Hm' & HH).
  - exists f; split; auto. intros r c s Hin; split; auto. intros (i' & Hi & _); lia.
  - intros i m0 Hi (f0 & Hm0 & H0).
    destruct (Hb i Hi m0 f0 Hm0) as (m1 & f1 & E1 & Hm1 & H1).
    exists m1; split; auto. exists f1; split; auto.
    intros r c s Hin. destruct (H1 r c s Hin) as [A B]. destruct (H0 r c s Hin) as [A0 B0].
    split.
    + intros (i' & Hi' & HP). destruct (Hdec i r c s Hi Hin) as [D|D]; auto.
      rewrite B by auto. apply A0. exists i'; split; auto.
      destruct (Z.eq_dec i' i); [subst; contradiction|lia].
    + intros Hn. rewrite B, B0; auto.
      * intros (i' & Hi' & HP); apply Hn; exists i'; split; auto; lia.
      * intros HP; apply Hn; exists i; split; auto; lia.
  - exists m', f'; split; auto; split; auto. intros r c s Hin.
    destruct (HH r c s Hin) as [A B]. split.
    + intros (i & Hi & HP); apply A; exists i; split; auto; lia.
    + intros Hn; apply B; intros (i & Hi & HP); apply Hn; exists i; split; auto; lia.
Qed.
End Facts.

Lemma fits_1 R C : fits R C 1 <-> 0 <= R <= INT_MAX /\ 0 <= C <= INT_MAX /\ R * C <= INT_MAX.
Proof. unfold fits. change INT_MAX with 2147483647. split; intros; repeat split; lia. Qed.
