(** * Matrix lemmas in the form in which the properties state them *)
From Verif Require Export MatrixReach MatrixPrint Exact.
From Coq Require Import ZifyBool.

Lemma cat_upto_S n g : 0 <= n -> cat_upto (n + 1) g = cat_upto n g ++ g (n + 1).
Proof.
  intros H. unfold cat_upto. replace (Z.to_nat (n + 1)) with (Z.to_nat n + 1)%nat by lia.
  rewrite seq_app, map_app, flat_map_app. simpl. rewrite app_nil_r. do 2 f_equal. lia.
Qed.

Lemma append_loop n g (body : Z -> str -> outcome str) out : 0 <= n ->
  (forall i o, 1 <= i <= n -> body i o = Ok (o ++ g i)) ->
  for_up 1 n body out = Ok (out ++ cat_upto n g).
Proof.
  intros Hn Hb.
  destruct (for_up_inv (fun i o => o = out ++ cat_upto (i - 1) g) body 1 n out) as (o & E & Ho); [lia| | |].
  - unfold cat_upto. simpl. rewrite app_nil_r. auto.
  - intros i o Hi ->. rewrite Hb by lia. eexists; split; [reflexivity|].
    rewrite <- app_assoc. f_equal. replace (i + 1 - 1) with (i - 1 + 1) by lia.
    rewrite cat_upto_S by lia. do 2 f_equal. lia.
  - etransitivity; [exact E|]. rewrite Ho. do 3 f_equal. lia.
Qed.

Lemma cat_upto_ext n g h : (forall i, 1 <= i <= n -> g i = h i) -> cat_upto n g = cat_upto n h.
Proof.
  intros H. unfold cat_upto. rewrite !flat_map_concat_map. f_equal. apply map_ext_in.
  intros x Hx. apply in_map_iff in Hx as (k & <- & Hk). apply in_seq in Hk. apply H; lia.
Qed.

(** What the code prints: shelf 1 under every shelf caption. *)
Lemma print_ok {T} (show : T -> str) m R C S f : denotes m R C S f ->
  print show m = Ok (matrix_text show R C S (fun i j _ => f i j 1)).
Proof.
  intros Hm. unfold print. shapes Hm. rewrite ER, EC, ES.
  destruct (denotes_dims _ _ _ _ _ Hm) as (?&?&?&_).
  rewrite (append_loop S (fun k => shelf_text show R C k (fun i j => f i j 1))); [|lia|].
  { unfold matrix_text. rewrite <- !app_assoc. reflexivity. }
  intros k o Hk. unfold shelf_text.
  rewrite (append_loop C (fun j => $"Col " ++ dec j ++ [tab])); [|lia|auto].
  cbn [bind].
  rewrite (append_loop R (fun i => $"Row " ++ dec i ++ [tab]
       ++ cat_upto C (fun j => show (f i j 1) ++ [tab]) ++ [nl])); [|lia|].
  { rewrite <- !app_assoc. reflexivity. }
  intros i o' Hi.
  rewrite (append_loop C (fun j => show (f i j 1) ++ [tab])); [|lia|].
  { cbn [bind]. rewrite <- !app_assoc. reflexivity. }
  intros j o'' Hj. rewrite (denotes_get2 _ _ _ _ _ _ _ Hm) by inr. reflexivity.
Qed.

Section Final.
Context {T : Type}.
Variable zero : T.
Implicit Types (m : mat T).

Lemma set_elem0_eq v m : 1 <= rows m -> 1 <= cols m -> 1 <= shel m -> wf m ->
  set_elem0 v m = set_elem3 v 1 1 1 m /\ get_elem0 m = get_elem3 m 1 1 1.
Proof.
  intros H1 H2 H3 Hwf. assert (Hin : inside (rows m) (cols m) (shel m) 1 1 1) by inr.
  rewrite set_elem3_in, get_elem3_in by auto.
  destruct (index_ok m 1 1 1 Hwf Hin) as [E _].
  assert (P : pos3 (cols m) (shel m) 1 1 1 = 0) by (unfold pos3; lia). rewrite P in E.
  unfold set_elem0, get_elem0, store, load. rewrite E. split; reflexivity.
Qed.

Lemma get_elem3_safe m r c s : wf m -> inside (rows m) (cols m) (shel m) r c s ->
  (exists v, get_elem3 m r c s = Ok v) \/ get_elem3 m r c s = Undef Uninitialised.
Proof.
  intros Hwf Hin. rewrite get_elem3_in by auto. unfold load.
  destruct (index_ok m r c s Hwf Hin) as [-> HR]. cbn [bind]. rewrite rd_nth by lia.
  destruct (nth_error (elem m) _) as [[v|]|] eqn:E; eauto.
  apply nth_error_None in E. lia.
Qed.

Lemma store_load m v r c s : wf m -> inside (rows m) (cols m) (shel m) r c s ->
  exists m', set_elem3 v r c s m = Ok m' /\
    (rows m' = rows m /\ cols m' = cols m /\ shel m' = shel m) /\
    get_elem3 m' r c s = Ok v /\
    forall r' c' s', (r', c', s') <> (r, c, s) -> get_elem3 m' r' c' s' = get_elem3 m r' c' s'.
Proof.
  intros Hwf Hin. destruct (set_elem3_get m v r c s Hwf Hin) as (m' & E & _ & E1 & E2 & E3 & H).
  exists m'. split; auto. split; auto. split.
  - rewrite H, !Z.eqb_refl. reflexivity.
  - intros r' c' s' Hne. rewrite H.
    destruct (Z.eqb_spec r' r); destruct (Z.eqb_spec c' c); destruct (Z.eqb_spec s' s); simpl; auto; subst; congruence.
Qed.

Lemma get_elem2_out m r c : ~ (1 <= r <= rows m /\ 1 <= c <= cols m) -> get_elem2 m r c = Exit 1.
Proof.
  intros H; unfold get_elem2. destruct (Z.ltb_spec r 1); auto. destruct (Z.ltb_spec (rows m) r); auto.
  destruct (Z.ltb_spec c 1); auto. destruct (Z.ltb_spec (cols m) c); auto. lia.
Qed.
Lemma set_elem2_out v m r c : ~ (1 <= r <= rows m /\ 1 <= c <= cols m) -> set_elem2 v r c m = Exit 1.
Proof.
  intros H; unfold set_elem2. destruct (Z.ltb_spec (rows m) r); auto. destruct (Z.ltb_spec r 1); auto.
  destruct (Z.ltb_spec (cols m) c); auto. destruct (Z.ltb_spec c 1); auto. lia.
Qed.
Lemma get_elem1_out m r : ~ (1 <= r <= rows m) -> get_elem1 m r = Exit 1.
Proof.
  intros H; unfold get_elem1. destruct (Z.ltb_spec r 1); auto. destruct (Z.ltb_spec (rows m) r); auto. lia.
Qed.
Lemma set_elem1_out v m r : ~ (1 <= r <= rows m) -> set_elem1 v r m = Exit 1.
Proof.
  intros H; unfold set_elem1. destruct (Z.ltb_spec (rows m) r); auto. destruct (Z.ltb_spec r 1); auto. lia.
Qed.

Lemma invert_twice m R C f : denotes m R C 1 f -> 1 <= R -> 1 <= C ->
  exists m', invert zero m = Ok m' /\ invert zero m' = Ok m.
Proof.
  intros Hm HR HC. destruct (invert_ok zero m R C f Hm HR HC) as (m1 & E1 & H1).
  destruct (invert_ok zero m1 C R _ H1 HC HR) as (m2 & E2 & H2).
  exists m1; split; auto. rewrite E2. f_equal. eapply denotes_inj; [exact H2|].
  eapply denotes_ext; [exact Hm|]. intros r c s Hin. replace s with 1 by inr. reflexivity.
Qed.

Lemma swap_row_twice m R C S f a b : denotes m R C S f -> 1 <= a <= R -> 1 <= b <= R -> 1 <= S ->
  exists m', swap_row zero a b m = Ok m' /\ swap_row zero a b m' = Ok m.
Proof.
  intros Hm Ha Hb HS. destruct (swap_row_ok zero m R C S f a b Hm Ha Hb HS) as (m1 & E1 & H1).
  destruct (swap_row_ok zero m1 R C S _ a b H1 Ha Hb HS) as (m2 & E2 & H2).
  exists m1; split; auto. rewrite E2. f_equal. eapply denotes_inj; [exact H2|].
  eapply denotes_ext; [exact Hm|]. intros r c s Hin. cbn beta.
  destruct (Z.eqb_spec s 1); auto. subst s. rewrite Z.eqb_refl.
  destruct (Z.eqb_spec r a) as [->|Na].
  - rewrite Z.eqb_refl. destruct (Z.eqb_spec b a); subst; auto.
  - destruct (Z.eqb_spec r b) as [->|Nb]; auto. rewrite Z.eqb_refl. auto.
Qed.

Lemma swap_col_twice m n S f a b : denotes m n n S f -> 1 <= a <= n -> 1 <= b <= n -> 1 <= S ->
  exists m', swap_col zero a b m = Ok m' /\ swap_col zero a b m' = Ok m.
Proof.
  intros Hm Ha Hb HS. destruct (swap_col_ok zero m n n S f a b Hm Ha Hb HS (or_introl eq_refl)) as (m1 & E1 & H1).
  destruct (swap_col_ok zero m1 n n S _ a b H1 Ha Hb HS (or_introl eq_refl)) as (m2 & E2 & H2).
  exists m1; split; auto. rewrite E2. f_equal. eapply denotes_inj; [exact H2|].
  eapply denotes_ext; [exact Hm|]. intros r c s Hin. cbn beta.
  destruct (Z.eqb_spec s 1); auto. subst s. rewrite Z.eqb_refl.
  destruct (Z.eqb_spec c a) as [->|Na].
  - rewrite Z.eqb_refl. destruct (Z.eqb_spec b a); subst; auto.
  - destruct (Z.eqb_spec c b) as [->|Nb]; auto. rewrite Z.eqb_refl. auto.
Qed.

Lemma moved_inv a b i : moved a b (moved b a i) = i.
Proof.
  unfold moved.
  repeat match goal with |- context [if ?x then _ else _] =>
    lazymatch x with context [if _ then _ else _] => fail | _ => destruct x eqn:? end end; lia.
Qed.
Lemma moved_range a b i n : 1 <= a <= n -> 1 <= b <= n -> 1 <= i <= n -> 1 <= moved a b i <= n.
Proof.
  intros. unfold moved.
  repeat match goal with |- context [if ?x then _ else _] => destruct x eqn:? end; lia.
Qed.

Lemma move_row_back m R C S f a b : denotes m R C S f -> 1 <= a <= R -> 1 <= b <= R -> 1 <= S ->
  exists m', move_row zero a b m = Ok m' /\ move_row zero b a m' = Ok m.
Proof.
  intros Hm Ha Hb HS. destruct (move_row_ok zero m R C S f a b Hm Ha Hb HS) as (m1 & E1 & H1).
  destruct (move_row_ok zero m1 R C S _ b a H1 Hb Ha HS) as (m2 & E2 & H2).
  exists m1; split; auto. rewrite E2. f_equal. eapply denotes_inj; [exact H2|].
  eapply denotes_ext; [exact Hm|]. intros r c s Hin. cbn beta.
  destruct (Z.eqb_spec s 1); auto. subst s. rewrite Z.eqb_refl, moved_inv. reflexivity.
Qed.

Lemma move_col_back m n S f a b : denotes m n n S f -> 1 <= a <= n -> 1 <= b <= n -> 1 <= S ->
  exists m', move_col zero a b m = Ok m' /\ move_col zero b a m' = Ok m.
Proof.
  intros Hm Ha Hb HS. destruct (move_col_ok zero m n n S f a b Hm Ha Hb HS (or_introl eq_refl)) as (m1 & E1 & H1).
  destruct (move_col_ok zero m1 n n S _ b a H1 Hb Ha HS (or_introl eq_refl)) as (m2 & E2 & H2).
  exists m1; split; auto. rewrite E2. f_equal. eapply denotes_inj; [exact H2|].
  eapply denotes_ext; [exact Hm|]. intros r c s Hin. cbn beta.
  destruct (Z.eqb_spec s 1); auto. subst s. rewrite Z.eqb_refl, moved_inv. reflexivity.
Qed.

(** matching against a permutation *)
Lemma match_recovers (lab : T -> str) m1 m2 R n N f1 f2 (p : Z -> Z) :
  denotes m1 R n 1 f1 -> denotes m2 R N 1 f2 ->
  (forall i, 1 <= i <= n -> 1 <= p i <= N) ->
  (forall i ii, 1 <= i <= n -> 1 <= ii <= N ->
     ((forall j, 1 <= j <= R -> lab (f1 j i 1) = lab (f2 j ii 1)) <-> ii = p i)) ->
  exists w, matchCol lab str_eqb m1 m2 = Ok w /\ lists w n p.
Proof.
  intros H1 H2 Hp Hu. destruct (matchCol_ok lab str_eqb m1 m2 R n N f1 f2 H1 H2) as (w & E & HL & HW).
  exists w; split; auto. split; auto. intros i Hi. destruct (HW i Hi) as (e & Ee & He).
  rewrite Ee. f_equal.
  assert (HP : forall j, 1 <= j <= R -> lab (f1 j i 1) = lab (f2 j (p i) 1)).
  { apply Hu; auto. }
  destruct He as [[-> Hno]|(Hr & Hm & _)].
  - exfalso. apply (Hno (p i)); auto. intros j Hj. apply str_eqb_eq. auto.
  - apply Hu; auto. intros j Hj. apply str_eqb_eq. auto.
Qed.
End Final.

(** ** Algebra of the product *)
Section Algebra.
Context {T : Type}.
Variable A : arith T.
Variables opp inv : T -> T.
Hypothesis HA : exact_arith A opp inv.

Lemma mat_mul_assoc a b c R N P C fa fb fc :
  denotes a R N 1 fa -> denotes b N P 1 fb -> denotes c P C 1 fc ->
  1 <= R -> 1 <= N -> 1 <= P -> 1 <= C -> R * P <= INT_MAX -> N * C <= INT_MAX -> R * C <= INT_MAX ->
  exists ab bc r, mat_mul A a b = Ok ab /\ mat_mul A b c = Ok bc /\
    mat_mul A ab c = Ok r /\ mat_mul A a bc = Ok r.
Proof.
  intros Ha Hb Hc HR HN HP HC M1 M2 M3.
  destruct (mat_mul_ok A a b R N P fa fb Ha Hb HR HP M1) as (ab & E1 & D1).
  destruct (mat_mul_ok A b c N P C fb fc Hb Hc HN HC M2) as (bc & E2 & D2).
  destruct (mat_mul_ok A ab c R P C _ fc D1 Hc HR HC M3) as (r & E3 & D3).
  destruct (mat_mul_ok A a bc R N C fa _ Ha D2 HR HC M3) as (r' & E4 & D4).
  exists ab, bc, r. repeat split; auto. rewrite E4. f_equal. eapply denotes_inj; [exact D4|].
  eapply denotes_ext; [exact D3|]. intros i j s Hin. cbn beta.
  exact (accum_assoc A opp inv HA _ _ (fun k => fa i k 1) (fun k l => fb k l 1) (fun l => fc l j 1)).
Qed.

Lemma mat_mul_transpose a b R N C fa fb :
  denotes a R N 1 fa -> denotes b N C 1 fb -> 1 <= R -> 1 <= N -> 1 <= C -> R * C <= INT_MAX ->
  exists ab at_ bt r, mat_mul A a b = Ok ab /\ invert (a_zero A) ab = Ok r /\
    invert (a_zero A) a = Ok at_ /\ invert (a_zero A) b = Ok bt /\ mat_mul A bt at_ = Ok r.
Proof.
  intros Ha Hb HR HN HC M.
  destruct (mat_mul_ok A a b R N C fa fb Ha Hb HR HC M) as (ab & E1 & D1).
  destruct (invert_ok (a_zero A) ab R C _ D1 HR HC) as (r & E2 & D2).
  destruct (invert_ok (a_zero A) a R N _ Ha HR HN) as (at_ & E3 & D3).
  destruct (invert_ok (a_zero A) b N C _ Hb HN HC) as (bt & E4 & D4).
  destruct (mat_mul_ok A bt at_ C N R _ _ D4 D3 HC HR) as (r' & E5 & D5); [lia|].
  exists ab, at_, bt, r. repeat split; auto. rewrite E5. f_equal. eapply denotes_inj; [exact D5|].
  eapply denotes_ext; [exact D2|]. intros i j s Hin. cbn beta. apply (accum_comm A opp inv HA).
Qed.
End Algebra.

Lemma mat_mul_bad {T} (A : arith T) m1 m2 : shel m1 <> 1 \/ shel m2 <> 1 \/ cols m1 <> rows m2 ->
  mat_mul A m1 m2 = Exit 1.
Proof.
  intros H. unfold mat_mul. destruct (Z.eqb_spec (shel m1) 1); auto.
  destruct (Z.eqb_spec (shel m2) 1); auto. destruct (Z.eqb_spec (cols m1) (rows m2)); auto. lia.
Qed.

Section Final2.
Context {T : Type}.
Variable zero : T.
Implicit Types (m : mat T).

Lemma Matrix_diag_bad m : (1 < cols m /\ 1 < rows m) \/ 1 < shel m ->
  Matrix_diag zero m = Throw InvalidArgument.
Proof.
  intros H. unfold Matrix_diag. destruct ((1 <? cols m) && (1 <? rows m)) eqn:E; auto.
  destruct (Z.ltb_spec 1 (shel m)); auto. lia.
Qed.

Lemma concat_mismatch (m1 m2 : mat T) :
  (cols m1 <> cols m2 \/ shel m1 <> shel m2 -> exists m', Matrix_concatenate_rows zero m1 m2 = Ok m' /\
     denotes m' 1 1 1 (fun _ _ _ => zero)) /\
  (rows m1 <> rows m2 \/ shel m1 <> shel m2 -> exists m', Matrix_concatenate_cols zero m1 m2 = Ok m' /\
     denotes m' 1 1 1 (fun _ _ _ => zero)).
Proof.
  unfold Matrix_concatenate_rows, Matrix_concatenate_cols. split; intros H.
  - destruct (Z.eqb_spec (cols m1) (cols m2)); [|apply Matrix_new0_ok].
    destruct (Z.eqb_spec (shel m1) (shel m2)); [|apply Matrix_new0_ok]. lia.
  - destruct (Z.eqb_spec (rows m1) (rows m2)); [|apply Matrix_new0_ok].
    destruct (Z.eqb_spec (shel m1) (shel m2)); [|apply Matrix_new0_ok]. lia.
Qed.

Lemma lists_ext {B} (v : list B) n g h : lists v n g -> (forall i, 1 <= i <= n -> g i = h i) -> lists v n h.
Proof. intros [HL HE] H. split; auto. intros i Hi. rewrite <- H by auto. auto. Qed.

Lemma set_row_get m R C S f v w r : denotes m R C S f -> lists v C w -> 1 <= r <= R -> 1 <= S ->
  exists m', set_row zero v r m = Ok m' /\
    denotes m' R C S (fun i j s => if (i =? r) && (s =? 1) then w j else f i j s) /\
    exists u, get_row m' r = Ok u /\ lists u C w.
Proof.
  intros Hm Hv Hr HS. destruct (set_row_ok zero m R C S f v w r Hm Hv Hr HS) as (m' & E & D).
  exists m'. split; auto. split; auto.
  destruct (get_row_ok m' R C S _ r D Hr HS) as (u & Eu & Hu). exists u; split; auto.
  eapply lists_ext; [exact Hu|]. intros j Hj. cbn beta. rewrite !Z.eqb_refl. reflexivity.
Qed.

Lemma set_col_get m n S f v w c : denotes m n n S f -> lists v n w -> 1 <= c <= n -> 1 <= S ->
  exists m', set_col zero v c m = Ok m' /\
    denotes m' n n S (fun i j s => if (j =? c) && (s =? 1) then w i else f i j s) /\
    exists u, get_col m' c = Ok u /\ lists u n w.
Proof.
  intros Hm Hv Hr HS. destruct (set_col_ok zero m n n S f v w c Hm Hv Hr HS eq_refl) as (m' & E & D).
  exists m'. split; auto. split; auto.
  destruct (get_col_ok m' n n S _ c D Hr HS) as (u & Eu & Hu). exists u; split; auto.
  eapply lists_ext; [exact Hu|]. intros j Hj. cbn beta. rewrite !Z.eqb_refl. reflexivity.
Qed.

Lemma set_col_nonsquare m R C S f v w c : denotes m R C S f -> lists v R w -> R <> C ->
  set_col zero v c m = Throw InvalidArgument.
Proof. intros (_ & _ & EC & _) [HL _] Hne. apply set_col_bad. lia. Qed.

Lemma swap_col_nonsquare m R C S f a b : denotes m R C S f -> 1 <= a <= C -> 1 <= b <= C -> 1 <= S ->
  R <> C -> a <> b -> swap_col zero a b m = Throw InvalidArgument.
Proof.
  intros Hm Ha Hb HS Hne Hab. unfold swap_col. destruct (Z.eqb_spec a b); [contradiction|].
  destruct (get_col_ok m R C S f a) as (va & Ea & La); auto.
  destruct (get_col_ok m R C S f b) as (vb & Eb & Lb); auto.
  rewrite Ea, Eb. cbn [bind]. rewrite (set_col_nonsquare m R C S f va _ b Hm La Hne). reflexivity.
Qed.

Lemma getCol_square m n S f c : denotes m n n S f -> 1 <= c <= n -> 1 <= S ->
  exists m', getCol zero m c = Ok m' /\ denotes m' n 1 S (fun i _ s => f i c s).
Proof.
  intros Hm Hc HS. destruct (getCol_ok zero m n n S f c) as (m' & E & D); auto; try lia.
  { destruct (denotes_dims _ _ _ _ _ Hm) as (_&_&_&HM). assert (0 <= (n * S) * (n - 1)) by (apply Z.mul_nonneg_nonneg; [apply Z.mul_nonneg_nonneg|]; lia). assert ((n*S)*(n-1) = n*n*S - n*S) by ring. assert (n * (n*S) = n*n*S) by ring. lia. }
  exists m'; split; auto. eapply denotes_ext; [exact D|]. intros i j s Hin. cbn beta.
  destruct (Z.leb_spec i n); auto. inr.
Qed.

Lemma last_match_iff n P Q e : (forall k, 1 <= k <= n -> (P k <-> Q k)) -> last_match n P e -> last_match n Q e.
Proof.
  intros H [[-> K]|(K1 & K2 & K3)].
  - left; split; auto. intros k Hk HQ. apply (K k Hk), H; auto.
  - right; split; auto. split; [apply H; auto|]. intros k Hk HQ. apply (K3 k Hk). apply H; [lia|exact HQ].
Qed.

Lemma matchCol_eq (lab : T -> str) m1 m2 R C1 C2 f1 f2 :
  denotes m1 R C1 1 f1 -> denotes m2 R C2 1 f2 ->
  exists w, matchCol lab str_eqb m1 m2 = Ok w /\ Z.of_nat (length w) = C1 /\
    forall i, 1 <= i <= C1 -> exists e, nth_error w (Z.to_nat (i - 1)) = Some e /\
      last_match C2 (fun ii => forall j, 1 <= j <= R -> lab (f1 j i 1) = lab (f2 j ii 1)) e.
Proof.
  intros H1 H2. destruct (matchCol_ok lab str_eqb m1 m2 R C1 C2 f1 f2 H1 H2) as (w & E & HL & HW).
  exists w; split; auto. split; auto. intros i Hi. destruct (HW i Hi) as (e & Ee & He).
  exists e; split; auto. eapply last_match_iff; [|exact He]. intros k Hk. split; intros K j Hj; apply str_eqb_eq; auto.
Qed.

Lemma matchRow_eq (lab : T -> str) m1 m2 C R1 R2 f1 f2 :
  denotes m1 R1 C 1 f1 -> denotes m2 R2 C 1 f2 ->
  exists w, matchRow lab str_eqb m1 m2 = Ok w /\ Z.of_nat (length w) = R1 /\
    forall i, 1 <= i <= R1 -> exists e, nth_error w (Z.to_nat (i - 1)) = Some e /\
      last_match R2 (fun ii => forall j, 1 <= j <= C -> lab (f1 i j 1) = lab (f2 ii j 1)) e.
Proof.
  intros H1 H2. destruct (matchRow_ok lab str_eqb m1 m2 C R1 R2 f1 f2 H1 H2) as (w & E & HL & HW).
  exists w; split; auto. split; auto. intros i Hi. destruct (HW i Hi) as (e & Ee & He).
  exists e; split; auto. eapply last_match_iff; [|exact He]. intros k Hk. split; intros K j Hj; apply str_eqb_eq; auto.
Qed.

Lemma match_mismatch (lab : T -> str) (m1 m2 : mat T) : shel m1 = 1 -> shel m2 = 1 ->
  (rows m1 <> rows m2 -> matchCol lab str_eqb m1 m2 = Throw InvalidArgument) /\
  (cols m1 <> cols m2 -> matchRow lab str_eqb m1 m2 = Throw InvalidArgument).
Proof.
  intros E1 E2. unfold matchCol, matchRow. rewrite E1, E2. cbn [Z.eqb Pos.eqb negb orb]. split; intros H.
  - destruct (Z.eqb_spec (rows m2) (rows m1)); auto. congruence.
  - destruct (Z.eqb_spec (cols m2) (cols m1)); auto. congruence.
Qed.

Lemma match_injective (lab : T -> str) R n N (f1 f2 : Z -> Z -> Z -> T) (p : Z -> Z) :
  (forall i, 1 <= i <= n -> 1 <= p i <= N) ->
  (forall i ii, 1 <= i <= n -> 1 <= ii <= N ->
     ((forall j, 1 <= j <= R -> lab (f1 j i 1) = lab (f2 j ii 1)) <-> ii = p i)) ->
  (forall i i', 1 <= i <= n -> 1 <= i' <= n ->
     (forall j, 1 <= j <= R -> lab (f1 j i 1) = lab (f1 j i' 1)) -> i = i') ->
  forall i i', 1 <= i <= n -> 1 <= i' <= n -> p i = p i' -> i = i'.
Proof.
  intros Hp Hu Hd i i' Hi Hi' E. apply Hd; auto. intros j Hj.
  rewrite (proj2 (Hu i (p i) Hi (Hp i Hi)) eq_refl j Hj).
  rewrite E. symmetry. apply (proj2 (Hu i' (p i') Hi' (Hp i' Hi')) eq_refl j Hj).
Qed.

Lemma print_one_shelf (show : T -> str) m R C f : denotes m R C 1 f ->
  print show m = Ok (matrix_text show R C 1 f).
Proof. intros Hm. rewrite (print_ok show m R C 1 f Hm). reflexivity. Qed.
End Final2.
