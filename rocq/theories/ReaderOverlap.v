(** * OverlapSectionReader on a lower triangle printed in blocks of five columns *)
From Verif Require Export ReaderLog.
Open Scope Z_scope.

Lemma range_cons lo hi : lo <= hi -> range lo hi = lo :: range (lo + 1) hi.
Proof.
  intros H. unfold range. replace (Z.to_nat (hi - lo + 1)) with (S (Z.to_nat (hi - (lo + 1) + 1))) by lia.
  cbn [seq map]. f_equal; [lia|]. rewrite <- seq_shift, map_map. apply map_ext. intros a. lia.
Qed.
Lemma range_nil lo hi : hi < lo -> range lo hi = [].
Proof. intros H. unfold range. replace (Z.to_nat (hi - lo + 1)) with O by lia. reflexivity. Qed.
Lemma range_len lo hi : length (range lo hi) = Z.to_nat (hi - lo + 1).
Proof. unfold range. rewrite map_length, seq_length. reflexivity. Qed.
Lemma range_in lo hi k : In k (range lo hi) <-> lo <= k <= hi.
Proof.
  unfold range. rewrite in_map_iff. split.
  - intros (n & <- & I). apply in_seq in I. lia.
  - intros H. exists (Z.to_nat (k - lo)). split; [lia|]. apply in_seq. lia.
Qed.
Lemma words_bound l : (length (splitSt l) <= length l)%nat.
Proof.
  destruct (weave_exists l) as (g0 & gs & -> & W). rewrite splitSt_weave by auto. rewrite map_length.
  revert g0 W. induction gs as [|[w g] t IH]; intros g0 W; cbn [weave length]; [lia|].
  destruct W as (_ & [Hw _] & _ & W). specialize (IH g W). rewrite !app_length. destruct w; [congruence|]. cbn [length]. lia.
Qed.
Lemma row_bound l ws : table_row l ws -> (length ws <= length l)%nat.
Proof. intros [H _]. apply words_split in H. subst. apply words_bound. Qed.

Section Overlap.
Context (N : nums).
Notation num := (num N).
Variable v : Z -> Z -> num.
Variable n : Z.

Lemma coef_of_ok s x : coef_text N s x -> coef_of N s = Ok x.
Proof.
  intros (a & b & p & q & H & Ha & Hb & ->). destruct (grab_first _ _ _ _ H) as [G1 G2]. unfold coef_of. rewrite G1. cbn [bind]. rewrite G2. cbn [bind].
  rewrite Ha. cbn [bind]. rewrite Hb. reflexivity.
Qed.
Lemma ov_values_ok ts vs : Forall2 (coef_text N) ts vs -> forall fuel i acc, holds i ts -> (length ts < fuel)%nat -> ov_values N fuel i acc = Ok (acc ++ vs).
Proof.
  induction 1 as [|t x ts vs Ht H IH]; intros fuel i acc Hh Hf; (destruct fuel as [|fuel]; [cbn [length] in Hf; lia|]); cbn [ov_values].
  - destruct Hh as (_ & -> & _). rewrite app_nil_r. reflexivity.
  - destruct (next_holds i t ts [] Hh) as (i' & E & Hh'). destruct Hh as (_ & -> & _). rewrite E, (coef_of_ok _ _ Ht). cbn [bind].
    rewrite (IH fuel i'); [|auto|cbn [length] in Hf; lia]. rewrite <- app_assoc. reflexivity.
Qed.

(** the matrix while it is filled: [P i j] says that entry (i,j), j <= i, has been read *)
Definition tri (m : mat num) (P : Z -> Z -> bool) : Prop :=
  denotes m n n 1 (fun r c _ => if P (Z.max r c) (Z.min r c) then v (Z.max r c) (Z.min r c) else n_zero N).
Lemma tri_ext m P Q : tri m P -> (forall a b, 1 <= b <= a -> a <= n -> P a b = Q a b) -> tri m Q.
Proof.
  intros H E. eapply denotes_ext; [exact H|]. intros r c s (H1 & H2 & _). cbv beta. rewrite E; [reflexivity|lia|lia].
Qed.
Lemma set2 (m : mat num) (f : Z -> Z -> Z -> num) (x : num) r c : denotes m n n 1 f -> 1 <= r <= n -> 1 <= c <= n -> exists m', set_elem2 x r c m = Ok m' /\
  denotes m' n n 1 (fun r' c' s' => if (r' =? r) && (c' =? c) && (s' =? 1) then x else f r' c' s').
Proof.
  intros H Hr Hc. rewrite set_elem2_eq by (destruct H as (_ & _ & _ & -> & _); lia). apply denotes_set3; auto. unfold inside. lia.
Qed.
Lemma set_tri m P i j : tri m P -> 1 <= j <= i -> i <= n -> exists m1 m2, set_elem2 (v i j) i j m = Ok m1 /\
  (if negb (i =? j) then set_elem2 (v i j) j i m1 else Ok m1) = Ok m2 /\ tri m2 (fun a b => P a b || ((a =? i) && (b =? j))).
Proof.
  intros H Hj Hi. destruct (set2 m _ (v i j) i j H) as (m1 & E1 & D1); [lia|lia|]. exists m1.
  destruct (Z.eqb_spec i j) as [->|Nij]; cbn [negb].
  - exists m1. split; [auto|]. split; [auto|]. eapply denotes_ext; [exact D1|]. intros r c s (R1 & R2 & R3). cbv beta. assert (s = 1) as -> by lia.
    rewrite andb_true_r. destruct (Z.eqb_spec r j), (Z.eqb_spec c j); subst; cbn [andb].
    + rewrite Z.max_id, Z.min_id, !Z.eqb_refl. cbn [andb]. now rewrite orb_true_r.
    + assert (Q : (Z.max j c =? j) && (Z.min j c =? j) = false) by (destruct (Z.eqb_spec (Z.max j c) j), (Z.eqb_spec (Z.min j c) j); auto; lia). rewrite Q, orb_false_r. reflexivity.
    + assert (Q : (Z.max r j =? j) && (Z.min r j =? j) = false) by (destruct (Z.eqb_spec (Z.max r j) j), (Z.eqb_spec (Z.min r j) j); auto; lia). rewrite Q, orb_false_r. reflexivity.
    + assert (Q : (Z.max r c =? j) && (Z.min r c =? j) = false) by (destruct (Z.eqb_spec (Z.max r c) j), (Z.eqb_spec (Z.min r c) j); auto; lia). rewrite Q, orb_false_r. reflexivity.
  - destruct (set2 m1 _ (v i j) j i D1) as (m2 & E2 & D2); [lia|lia|]. exists m2. split; [auto|]. split; [auto|].
    eapply denotes_ext; [exact D2|]. intros r c s (R1 & R2 & R3). cbv beta. assert (s = 1) as -> by lia. rewrite !andb_true_r.
    destruct ((r =? j) && (c =? i)) eqn:B1.
    { apply andb_true_iff in B1 as [B1 B2]. apply Z.eqb_eq in B1, B2. subst. rewrite Z.max_r, Z.min_l by lia. rewrite !Z.eqb_refl. cbn [andb]. now rewrite orb_true_r. }
    destruct ((r =? i) && (c =? j)) eqn:B2.
    { apply andb_true_iff in B2 as [B3 B2]. apply Z.eqb_eq in B3, B2. subst. rewrite Z.max_l, Z.min_r by lia. rewrite !Z.eqb_refl. cbn [andb]. now rewrite orb_true_r. }
    assert (Q : (Z.max r c =? i) && (Z.min r c =? j) = false).
    { apply andb_false_iff in B1. apply andb_false_iff in B2. rewrite !Z.eqb_neq in *. apply andb_false_iff. rewrite !Z.eqb_neq. lia. }
    rewrite Q, orb_false_r. reflexivity.
Qed.

(** ** the first block *)
Lemma fill_row i hi : 1 <= i <= n -> hi <= i -> forall k j m P, tri m P -> 1 <= j -> k = Z.to_nat (hi - j + 1) ->
  exists m', for_each (map (v i) (range j hi)) (fun val (q : Z * mat num) => let '(c, m) := q in
      m <- set_elem2 val i c m ;; m <- (if negb (i =? c) then set_elem2 val c i m else Ok m) ;; Ok (c + 1, m)) (j, m) = Ok (Z.max j (hi + 1), m') /\
    tri m' (fun a b => P a b || ((a =? i) && ((j <=? b) && (b <=? hi)))).
Proof.
  intros Hi Hhi k. induction k as [|k IH]; intros j m P T Hj Hk.
  - rewrite range_nil by lia. cbn [map for_each]. exists m. split; [do 2 f_equal; lia|]. eapply tri_ext; [exact T|]. intros a b Hb Ha. cbv beta.
    destruct (Z.leb_spec j b), (Z.leb_spec b hi); try lia; rewrite ?andb_false_r, ?orb_false_r; auto.
  - rewrite range_cons by lia. cbn [map for_each]. destruct (set_tri m P i j T) as (m1 & m2 & E1 & E2 & T2); [lia|lia|]. rewrite E1. cbn [bind]. rewrite E2. cbn [bind].
    destruct (IH (j + 1) m2 _ T2) as (m3 & E3 & T3); [lia|lia|]. exists m3. rewrite E3. split; [do 2 f_equal; lia|].
    eapply tri_ext; [exact T3|]. intros a b Hb Ha. cbv beta.
    destruct (P a b); cbn [orb]; auto. destruct (Z.eqb_spec a i); cbn [andb]; auto.
    destruct (Z.eqb_spec b j); destruct (Z.leb_spec (j + 1) b), (Z.leb_spec b hi), (Z.leb_spec j b); cbn [andb orb]; auto; lia.
Qed.
Definition rowvals (i : Z) : list num := map (v i) (range 1 (Z.min i 5)).
Lemma fill_ok m : tri m (fun _ _ => false) -> exists m', ov_fill N (map rowvals (range 1 n)) m = Ok m' /\ tri m' (fun a b => b <=? 5).
Proof.
  intros T. unfold ov_fill.
  assert (G : forall k r m, tri m (fun a b => (a <? r) && (b <=? 5)) -> 1 <= r -> k = Z.to_nat (n - r + 1) ->
    exists p, for_each (map rowvals (range r n)) (fun row (p : Z * mat num) => let '(r, m) := p in
         q <- for_each row (fun val (q : Z * mat num) => let '(c, m) := q in
                m <- set_elem2 val r c m ;; m <- (if negb (r =? c) then set_elem2 val c r m else Ok m) ;; Ok (c + 1, m)) (1, m) ;;
         Ok (r + 1, snd q)) (r, m) = Ok p /\ tri (snd p) (fun a b => b <=? 5)).
  { intros k. induction k as [|k IH]; intros r m0 T0 Hr Hk.
    - rewrite range_nil by lia. cbn [map for_each]. eexists. split; [reflexivity|]. cbn [snd]. eapply tri_ext; [exact T0|]. intros a b Hb Ha. cbv beta.
      destruct (Z.ltb_spec a r); [auto|lia].
    - rewrite range_cons by lia. cbn [map for_each]. destruct (fill_row r (Z.min r 5) ltac:(lia) ltac:(lia) _ 1 m0 _ T0 ltac:(lia) eq_refl) as (m1 & E1 & T1).
      unfold rowvals at 1. rewrite E1. cbn [bind snd]. apply (IH (r + 1) m1); [|lia|lia]. eapply tri_ext; [exact T1|]. intros a b Hb Ha. cbv beta.
      destruct (Z.ltb_spec a r), (Z.leb_spec b 5), (Z.eqb_spec a r), (Z.leb_spec 1 b), (Z.leb_spec b (Z.min r 5)), (Z.ltb_spec a (r + 1)); cbn [andb orb]; auto; lia. }
  destruct (G (Z.to_nat (n - 1 + 1)) 1 m) as (p & E & T2); [|lia|auto|].
  - eapply tri_ext; [exact T|]. intros a b Hb Ha. cbv beta. destruct (Z.ltb_spec a 1); [lia|auto].
  - rewrite E. cbn [bind]. eauto.
Qed.
Lemma Forall2_map_r {A B C} (R : A -> B -> Prop) (g : C -> B) (h : C -> A) l : (forall x, In x l -> R (h x) (g x)) -> Forall2 R (map h l) (map g l).
Proof. induction l as [|x t IH]; intros H; constructor; [apply H; left; auto|apply IH; intros; apply H; right; auto]. Qed.

Variable t : Z -> Z -> str.
Hypothesis Ht : forall i j, 1 <= j <= i -> i <= n -> coef_text N (t i j) (v i j).
Hypothesis Hint : n < INT_MAX.
Lemma stoi_row i : 1 <= i -> i <= n + 1 -> stoi (dec i) = Ok i.
Proof.
  intros H1 H2. pose proof (stoi_dec_gen [] i [] white_nil) as H. rewrite app_nil_r in H. cbn [app] in H. assert (K : stops []) by (intros c u K; discriminate). rewrite (H K).
  assert (Hb : is_intb i = true) by (unfold is_intb; change INT_MIN with (-2147483648); change INT_MAX with 2147483647 in *; destruct (Z.leb_spec (-2147483648) i), (Z.leb_spec i 2147483647); auto; lia).
  rewrite Hb. reflexivity.
Qed.
(** rows [k+1 .. n] of the first block, then a line that is not row n+1 *)
Lemma next_words h w ws cc : words_of h (w :: ws) -> exists i', next (iss h) cc = (w, i').
Proof.
  intros Hh. apply words_split in Hh. destruct (weave_exists h) as (g0 & gs & E0 & W).
  unfold next, iss. cbn [i_eof i_fail orb i_rest]. rewrite E0 in *. rewrite splitSt_weave in Hh by auto. destruct gs as [|[w' g] gt]; [discriminate|].
  cbn [map fst] in Hh. inversion Hh; subst. rewrite extract_weave by auto. eauto.
Qed.
Lemma next_blank h cc : words_of h [] -> exists i', next (iss h) cc = (cc, i').
Proof.
  intros Hh. apply words_split in Hh. destruct (weave_exists h) as (g0 & gs & E0 & W).
  unfold next, iss. cbn [i_eof i_fail orb i_rest]. rewrite E0 in *. rewrite splitSt_weave in Hh by auto. destruct gs as [|[w' g] gt]; [|discriminate].
  cbn [weave]. rewrite extract_white by apply W. eauto.
Qed.
Lemma first_rows h rest tail (res : fstate -> str -> list (list num) -> outcome (fstate * str * Z * list (list num))) : is_line h ->
  (forall fuel f line acc, at_ f (h :: rest) tail -> ov_first N (S fuel) f line (dec n) n acc = res f line acc) ->
  forall rows k fuel f line cc acc, Forall2 (fun i l => table_row l (dec i :: map (t i) (range 1 (Z.min i 5)))) (range (k + 1) n) rows -> Forall is_line rows ->
  0 <= k -> k <= n -> (k = n -> cc = dec n) -> at_ f (rows ++ h :: rest) tail -> (length rows < fuel)%nat ->
  exists f1 l1, ov_first N fuel f line cc k acc = res f1 l1 (acc ++ map rowvals (range (k + 1) n)) /\ at_ f1 (h :: rest) tail.
Proof.
  intros Lh Hres. induction rows as [|r rows IH]; intros k fuel f line cc acc F L Hk Hkn Hcc Hat Hf; (destruct fuel as [|fuel]; [cbn [length] in Hf; lia|]).
  - assert (k = n) as ->. { destruct (Z.eq_dec k n); auto. rewrite range_cons in F by lia. inversion F. }
    cbn [app] in Hat. rewrite (Hcc eq_refl). rewrite (range_nil (n + 1)) by lia. cbn [map]. rewrite app_nil_r. exists f, line. split; [apply Hres; auto|auto].
  - cbn [ov_first]. assert (k < n). { destruct (Z.eq_dec k n); [|lia]. subst. rewrite range_nil in F by lia. inversion F. }
    rewrite range_cons in F by lia. inversion F as [|? ? ? ? Hr F2]; subst. inversion L as [|? ? Lr L2]; subst.
    cbn [app] in Hat. destruct (getl_line f r (rows ++ h :: rest) tail line Hat Lr) as (f1 & -> & Hat1 & _).
    destruct (next_holds _ _ _ cc (holds_iss _ _ _ Hr)) as (i' & -> & Hi'). rewrite stoi_row by lia. cbn [bind]. rewrite Z.eqb_refl. cbn [negb].
    pose proof (row_bound _ _ Hr) as Bd. cbn [length] in Bd.
    rewrite (ov_values_ok (map (t (k + 1)) (range 1 (Z.min (k + 1) 5))) (map (v (k + 1)) (range 1 (Z.min (k + 1) 5)))); [|apply Forall2_map_r; intros j Ij; apply range_in in Ij; apply Ht; lia|auto|lia].
    cbn [bind app].
    destruct (IH (k + 1) fuel f1 r (dec (k + 1)) (acc ++ [map (v (k + 1)) (range 1 (Z.min (k + 1) 5))]) F2 L2) as (f2 & l2 & R & Hat2); [lia|lia|congruence|auto|cbn [length] in Hf; lia|].
    rewrite R. exists f2, l2. split; [|auto]. rewrite (range_cons (k + 1)) by lia. cbn [map]. rewrite <- app_assoc. reflexivity.
Qed.
Lemma ov_first_ok h rest tail : is_line h -> not_row (n + 1) h -> 1 <= n ->
  forall rows fuel f line, Forall2 (fun i l => table_row l (dec i :: map (t i) (range 1 (Z.min i 5)))) (range 1 n) rows -> Forall is_line rows ->
  at_ f (rows ++ h :: rest) tail -> (length rows < fuel)%nat ->
  exists f', ov_first N fuel f line [] 0 [] = Ok (f', h, n, map rowvals (range 1 n)) /\ at_ f' rest tail.
Proof.
  intros Lh Hh Hn rows fuel f line F L Hat Hf.
  assert (Hx : exists i' w z, next (iss h) (dec n) = (w, i') /\ stoi w = Ok z /\ z <> n + 1).
  { destruct Hh as [Hb|(w & ws & z & Hw & Hz & Nz)].
    - destruct (next_blank h (dec n) Hb) as (i' & E). exists i', (dec n), n. split; [auto|]. split; [apply stoi_row; lia|lia].
    - destruct (next_words h w ws (dec n) Hw) as (i' & E). exists i', w, z. auto. }
  destruct Hx as (i' & w & z & E & Hz & Nz).
  destruct (first_rows h rest tail (fun f line acc => let '(l, f) := getl f line in Ok (f, h, n, acc)) Lh) with (rows := rows) (k := 0) (fuel := fuel) (f := f) (line := line) (cc := @nil ascii) (acc := @nil (list num)) as (f1 & l1 & R & Hat1); auto; try lia.
  - intros fuel0 f0 line0 acc Hat0. cbn [ov_first]. destruct (getl_line f0 h rest tail line0 Hat0 Lh) as (f1 & -> & Hat1 & _).
    rewrite E, Hz. cbn [bind]. destruct (Z.eqb_spec z (n + 1)); [contradiction|]. reflexivity.
  - rewrite R. destruct (getl_line f1 h rest tail l1 Hat1 Lh) as (f2 & -> & Hat2 & _). exists f2. auto.
Qed.
Lemma ov_first_throw h w ws ex rest tail : is_line h -> words_of h (w :: ws) -> stoi w = Throw ex -> 1 <= n ->
  forall rows fuel f line, Forall2 (fun i l => table_row l (dec i :: map (t i) (range 1 (Z.min i 5)))) (range 1 n) rows -> Forall is_line rows ->
  at_ f (rows ++ h :: rest) tail -> (length rows < fuel)%nat -> ov_first N fuel f line [] 0 [] = Throw ex.
Proof.
  intros Lh Hw Hz Hn rows fuel f line F L Hat Hf.
  destruct (first_rows h rest tail (fun _ _ _ => Throw ex) Lh) with (rows := rows) (k := 0) (fuel := fuel) (f := f) (line := line) (cc := @nil ascii) (acc := @nil (list num)) as (f1 & l1 & R & Hat1); auto; try lia.
  intros fuel0 f0 line0 acc Hat0. cbn [ov_first]. destruct (getl_line f0 h rest tail line0 Hat0 Lh) as (f1 & -> & Hat1 & _).
  destruct (next_words h w ws (dec n) Hw) as (i' & ->). rewrite Hz. reflexivity.
Qed.

(** ** the other blocks *)
Lemma ov_row_ok i hi : 1 <= i <= n -> hi <= i -> forall k j it m P fuel, tri m P -> 1 <= j -> k = Z.to_nat (hi - j + 1) ->
  holds it (map (t i) (range j hi)) -> (k < fuel)%nat ->
  exists m', ov_row N fuel it i j m = Ok m' /\ tri m' (fun a b => P a b || ((a =? i) && ((j <=? b) && (b <=? hi)))).
Proof.
  intros Hi Hhi k. induction k as [|k IH]; intros j it m P fuel T Hj Hk Hh Hf; (destruct fuel as [|fuel]; [lia|]); cbn [ov_row].
  - rewrite range_nil in Hh by lia. destruct Hh as (_ & -> & _). exists m. split; [auto|]. eapply tri_ext; [exact T|]. intros a b Hb Ha. cbv beta.
    destruct (Z.leb_spec j b), (Z.leb_spec b hi); try lia; rewrite ?andb_false_r, ?orb_false_r; auto.
  - rewrite range_cons in Hh by lia. cbn [map] in Hh. destruct (next_holds it _ _ [] Hh) as (it' & E & Hh'). destruct Hh as (_ & -> & _). rewrite E.
    rewrite (coef_of_ok _ _ (Ht i j ltac:(lia) ltac:(lia))). cbn [bind].
    destruct (set_tri m P i j T) as (m1 & m2 & E1 & E2 & T2); [lia|lia|]. rewrite E1. cbn [bind]. rewrite E2. cbn [bind].
    destruct (IH (j + 1) it' m2 _ fuel T2) as (m3 & E3 & T3); [lia|lia|auto|lia|]. exists m3. rewrite E3. split; [auto|].
    eapply tri_ext; [exact T3|]. intros a b Hb Ha. cbv beta.
    destruct (P a b); cbn [orb]; auto. destruct (Z.eqb_spec a i); cbn [andb]; auto.
    destruct (Z.eqb_spec b j); destruct (Z.leb_spec (j + 1) b), (Z.leb_spec b hi), (Z.leb_spec j b); cbn [andb orb]; auto; lia.
Qed.
Lemma block_ok start rest tail : 0 <= start -> start mod 5 = 0 -> forall rows k f line m, 
  Forall2 (fun i l => table_row l (dec i :: map (t i) (range (start + 1) (Z.min i (start + 5))))) (range (k + 1) n) rows -> Forall is_line rows ->
  start <= k <= n -> at_ f (rows ++ rest) tail -> tri m (fun a b => (b <=? start) || ((a <=? k) && (b <=? start + 5))) ->
  exists f' line' m', for_up k (n - 1) (fun sectionCoef (q : fstate * str * mat num) =>
                let '(f, line, m) := q in
                let '(line, f) := getl f line in
                let '(_, i) := next (iss line) [] in
                m <- ov_row N (S (S (length line))) i (sectionCoef + 1) (start + 1) m ;;
                Ok (f, line, m)) (f, line, m) = Ok (f', line', m') /\ at_ f' rest tail /\ tri m' (fun a b => b <=? start + 5).
Proof.
  intros Hs Hm. induction rows as [|r rows IH]; intros k f line m F L Hk Hat T.
  - assert (k = n) as ->. { destruct (Z.eq_dec k n); auto. rewrite range_cons in F by lia. inversion F. }
    rewrite for_up_empty by lia. exists f, line, m. split; [auto|]. split; [auto|]. eapply tri_ext; [exact T|]. intros a b Hb Ha. cbv beta.
    destruct (Z.leb_spec b start), (Z.leb_spec a n), (Z.leb_spec b (start + 5)); cbn [andb orb]; auto; lia.
  - assert (k < n). { destruct (Z.eq_dec k n); [|lia]. subst. rewrite range_nil in F by lia. inversion F. }
    rewrite range_cons in F by lia. inversion F as [|? ? ? ? Hr F2]; subst. inversion L as [|? ? Lr L2]; subst.
    rewrite for_up_step by lia. cbn [app] in Hat. destruct (getl_line f r (rows ++ rest) tail line Hat Lr) as (f1 & -> & Hat1 & _).
    destruct (next_holds _ _ _ [] (holds_iss _ _ _ Hr)) as (i' & -> & Hi'). pose proof (row_bound _ _ Hr) as Bd. cbn [length] in Bd. rewrite map_length, range_len in Bd.
    destruct (ov_row_ok (k + 1) (Z.min (k + 1) (start + 5)) ltac:(lia) ltac:(lia) _ (start + 1) i' m _ (S (S (length r))) T ltac:(lia) eq_refl Hi') as (m1 & E1 & T1); [lia|].
    rewrite E1. cbn [bind]. apply (IH (k + 1) f1 r m1); auto; [lia|]. eapply tri_ext; [exact T1|]. intros a b Hb Ha. cbv beta.
    destruct (Z.leb_spec b start), (Z.leb_spec a k), (Z.leb_spec b (start + 5)), (Z.eqb_spec a (k + 1)), (Z.leb_spec (start + 1) b), (Z.leb_spec b (Z.min (k + 1) (start + 5))), (Z.leb_spec a (k + 1)); cbn [andb orb]; auto; lia.
Qed.

Lemma kmax_bounds : 6 <= n -> 1 <= (n - 1) / 5 /\ 5 * ((n - 1) / 5) < n <= 5 * ((n - 1) / 5) + 5.
Proof. intros H. pose proof (Z.div_mod (n - 1) 5 ltac:(lia)). pose proof (Z.mod_pos_bound (n - 1) 5 ltac:(lia)). lia. Qed.
Lemma reads_eq : 6 <= n -> n / 5 + (if 0 <? n mod 5 then 1 else 0) = (n - 1) / 5 + 1.
Proof.
  intros H. pose proof (kmax_bounds H). pose proof (Z.div_mod n 5 ltac:(lia)). pose proof (Z.mod_pos_bound n 5 ltac:(lia)).
  destruct (Z.ltb_spec 0 (n mod 5)); lia.
Qed.
Lemma sections_ok after more tail : 6 <= n -> is_line tail -> (match after with Some l => is_line l | None => more = [] end) ->
  forall blocks s rows f line m, Forall2 (overlap_block n t) (range s ((n - 1) / 5)) blocks -> Forall is_line (concat blocks) ->
  Forall2 (fun i l => table_row l (dec i :: map (t i) (range (5 * (s - 1) + 1) (Z.min i (5 * (s - 1) + 5))))) (range (5 * (s - 1) + 1) n) rows -> Forall is_line rows ->
  2 <= s <= (n - 1) / 5 + 1 -> at_ f (rows ++ concat blocks ++ opt after ++ more) tail -> tri m (fun a b => b <=? 5 * (s - 1)) ->
  exists f' line' m', for_up s ((n - 1) / 5 + 1) (fun section (p : fstate * str * mat num) =>
         let start := 5 * (section - 1) in
         q <- for_up start (n - 1) (fun sectionCoef (q : fstate * str * mat num) =>
                let '(f, line, m) := q in
                let '(line, f) := getl f line in
                let '(_, i) := next (iss line) [] in
                m <- ov_row N (S (S (length line))) i (sectionCoef + 1) (start + 1) m ;;
                Ok (f, line, m)) p ;;
         let '(f, line, m) := q in
         let '(line, f) := getl f line in
         Ok (f, line, m)) (f, line, m) = Ok (f', line', m') /\ post f' more tail /\ tri m' (fun _ _ => true).
Proof.
  intros H6 Lt Ha. pose proof (kmax_bounds H6) as KB.
  induction blocks as [|bl blocks IH]; intros s rows f line m FB LB FR LR Hs Hat T.
  - assert (s = (n - 1) / 5 + 1) as ->. { destruct (Z.le_gt_cases s ((n - 1) / 5)); [|lia]. rewrite range_cons in FB by lia. inversion FB. }
    rewrite for_up_step by lia. cbv zeta. replace ((n - 1) / 5 + 1 - 1) with ((n - 1) / 5) in * by lia. cbn [concat app] in Hat.
    destruct (block_ok (5 * ((n - 1) / 5)) (opt after ++ more) tail ltac:(lia) ltac:(rewrite Z.mul_comm; apply Z_mod_mult) rows (5 * ((n - 1) / 5)) f line m FR LR ltac:(lia) Hat) as (f1 & l1 & m1 & E1 & Hat1 & T1).
    { eapply tri_ext; [exact T|]. intros a b Hb Hab. cbv beta. destruct (Z.leb_spec b (5 * ((n - 1) / 5))), (Z.leb_spec a (5 * ((n - 1) / 5))), (Z.leb_spec b (5 * ((n - 1) / 5) + 5)); cbn [andb orb]; auto; lia. }
    rewrite E1. cbn [bind].
    assert (T2 : tri m1 (fun _ _ => true)). { eapply tri_ext; [exact T1|]. intros a b Hb Hab. cbv beta. destruct (Z.leb_spec b (5 * ((n - 1) / 5) + 5)); auto; lia. }
    destruct after as [l|]; cbn [opt app] in Hat1.
    + destruct (getl_line f1 l more tail l1 Hat1 Ha) as (f2 & -> & Hat2 & _). cbn [bind]. rewrite for_up_empty by lia. exists f2, l, m1. split; [auto|]. split; [left; auto|auto].
    + subst more. destruct (getl_tail f1 tail l1 Hat1 Lt) as (f2 & -> & D & _). cbn [bind]. rewrite for_up_empty by lia. exists f2, tail, m1. split; [auto|]. split; [right; auto|auto].
  - assert (s <= (n - 1) / 5). { destruct (Z.le_gt_cases s ((n - 1) / 5)); [lia|]. rewrite range_nil in FB by lia. inversion FB. }
    rewrite range_cons in FB by lia. inversion FB as [|? ? ? ? (h & rows2 & -> & _ & FR2) FB2]; subst.
    cbn [concat app] in LB, Hat. inversion LB as [|? ? Lh LB2]; subst. apply Forall_app in LB2 as [LR2 LB2].
    rewrite for_up_step by lia. cbv zeta.
    destruct (block_ok (5 * (s - 1)) (h :: rows2 ++ concat blocks ++ opt after ++ more) tail ltac:(lia) ltac:(rewrite Z.mul_comm; apply Z_mod_mult) rows (5 * (s - 1)) f line m FR LR ltac:(lia)) as (f1 & l1 & m1 & E1 & Hat1 & T1).
    { rewrite <- app_assoc in Hat. exact Hat. }
    { eapply tri_ext; [exact T|]. intros a b Hb Hab. cbv beta. destruct (Z.leb_spec b (5 * (s - 1))), (Z.leb_spec a (5 * (s - 1))), (Z.leb_spec b (5 * (s - 1) + 5)); cbn [andb orb]; auto; lia. }
    rewrite E1. cbn [bind]. destruct (getl_line f1 h _ tail l1 Hat1 Lh) as (f2 & -> & Hat2 & _). cbn [bind].
    apply (IH (s + 1) rows2 f2 h m1); auto; try lia.
    + replace (s + 1 - 1) with s by lia. exact FR2.
    + replace (5 * (s + 1 - 1)) with (5 * (s - 1) + 5) by lia. exact T1.
Qed.
Lemma overlap_section_ok f ls after more tail fuel d : 1 <= n -> n * n <= INT_MAX -> is_line tail -> (match after with Some l => is_line l | None => more = [] end) ->
  (n <= 5 -> exists l, after = Some l /\ not_row (n + 1) l) ->
  overlap_lines n t ls -> at_ f (ls ++ opt after ++ more) tail -> (length ls < fuel)%nat ->
  exists f' m, OverlapSectionReader N fuel f d = Ok (f', mkLog N (homoLevel N d) (orb_ N d) (Some m) (OREnergies N d) (xyz N d)) /\
    post f' more tail /\ denotes m n n 1 (fun r c _ => v (Z.max r c) (Z.min r c)).
Proof.
  intros H1 Hnn Lt Ha Hs (blocks & -> & FB & LB) Hat Hf.
  assert (K0 : 0 <= (n - 1) / 5) by (apply Z.div_pos; lia).
  rewrite range_cons in FB by lia. inversion FB as [|? ? ? ? (h0 & rows0 & -> & _ & FR0) FB1]; subst. clear FB.
  unfold OverlapSectionReader. destruct (Matrix_new2_ok (n_zero N) n n) as (m0 & E0 & D0); [lia|lia|lia|]. destruct (fill_ok m0) as (m1 & E1 & T1); [exact D0|].
  destruct (Z.le_gt_cases n 5) as [H5|H5].
  - destruct (Hs H5) as (l & -> & Nl). assert (Kz : (n - 1) / 5 = 0) by (apply Z.div_small; lia). rewrite Kz, range_nil in FB1 by lia. inversion FB1; subst.
    cbn [concat app opt] in LB, Hat, Hf. rewrite app_nil_r in LB, Hat, Hf. inversion LB as [|? ? Lh0 LR0]; subst.
    destruct (getl_line f h0 _ tail [] Hat Lh0) as (f1 & -> & Hat1 & _).
    destruct (ov_first_ok l more tail Ha Nl H1 rows0 fuel f1 h0 FR0 LR0 Hat1) as (f2 & E2 & Hat2); [cbn [length] in Hf; lia|].
    rewrite E2. cbn [bind]. rewrite E0. cbn [bind]. rewrite E1. cbn [bind].
    assert (Rd : n / 5 + (if 0 <? n mod 5 then 1 else 0) = 1).
    { pose proof (Z.div_mod n 5 ltac:(lia)). pose proof (Z.mod_pos_bound n 5 ltac:(lia)). destruct (Z.ltb_spec 0 (n mod 5)); lia. }
    rewrite Rd, for_up_empty by lia. cbn [bind]. exists f2, m1. split; [auto|]. split; [left; auto|].
    eapply denotes_ext; [exact T1|]. intros r c s (R1 & R2 & _). cbv beta. destruct (Z.leb_spec (Z.min r c) 5); [auto|lia].
  - assert (H6 : 6 <= n) by lia. pose proof (kmax_bounds H6) as KB.
    rewrite range_cons in FB1 by lia. inversion FB1 as [|? ? ? ? (h1 & rows1 & -> & Hw1 & FR1) FB2]; subst. clear FB1.
    cbn [concat app] in LB, Hat, Hf. inversion LB as [|? ? Lh0 LB1]; subst. apply Forall_app in LB1 as [LR0 LB1]. inversion LB1 as [|? ? Lh1 LB2]; subst. apply Forall_app in LB2 as [LR1 LB2].
    destruct (getl_line f h0 _ tail [] Hat Lh0) as (f1 & -> & Hat1 & _).
    rewrite <- app_assoc in Hat1. cbn [app] in Hat1. rewrite (range_cons (5 * (0 + 1) + 1)) in Hw1 by lia. cbn [map] in Hw1.
    assert (H61 : stoi (dec (5 * (0 + 1) + 1)) = Ok 6) by (change (5 * (0 + 1) + 1) with 6; vm_compute; reflexivity).
    assert (Nr1 : not_row (n + 1) h1) by (right; do 2 eexists; exists 6; split; [exact Hw1|]; split; [exact H61|lia]).
    destruct (ov_first_ok h1 _ tail Lh1 Nr1 H1 rows0 fuel f1 h0 FR0 LR0 Hat1) as (f2 & E2 & Hat2).
    { cbn [length] in Hf. rewrite app_length in Hf. lia. }
    rewrite E2. cbn [bind]. rewrite E0. cbn [bind]. rewrite E1. cbn [bind].
    rewrite reads_eq by auto.
    destruct (sections_ok after more tail H6 Lt Ha _ 2 rows1 f2 h1 m1 FB2 LB2 FR1 LR1 ltac:(lia)) as (f3 & l3 & m3 & E3 & P3 & T3).
    { rewrite <- app_assoc in Hat2. exact Hat2. }
    { exact T1. }
    cbv zeta in E3. rewrite E3. cbn [bind]. exists f3, m3. split; [auto|]. split; [auto|]. exact T3.
Qed.
(** after a table of at most five columns, a line whose first word is no number *)
Lemma overlap_small_throws f ls h w ws ex more tail fuel d : 1 <= n <= 5 -> is_line h -> words_of h (w :: ws) -> stoi w = Throw ex ->
  overlap_lines n t ls -> at_ f (ls ++ h :: more) tail -> (length ls < fuel)%nat -> OverlapSectionReader N fuel f d = Throw ex.
Proof.
  intros H5 Lh Hw Hz (blocks & -> & FB & LB) Hat Hf.
  assert (Kz : (n - 1) / 5 = 0) by (apply Z.div_small; lia). rewrite Kz in FB.
  rewrite range_cons in FB by lia. inversion FB as [|? ? ? ? (h0 & rows0 & -> & _ & FR0) FB1]; subst. rewrite range_nil in FB1 by lia. inversion FB1; subst.
  cbn [concat app opt] in LB, Hat, Hf. rewrite app_nil_r in LB, Hat, Hf. inversion LB as [|? ? Lh0 LR0]; subst.
  unfold OverlapSectionReader. destruct (getl_line f h0 _ tail [] Hat Lh0) as (f1 & -> & Hat1 & _).
  assert (Hn1 : 1 <= n) by lia. assert (Hr0 : (length rows0 < fuel)%nat) by (cbn [length] in Hf; lia).
  rewrite (ov_first_throw h w ws ex more tail Lh Hw Hz Hn1 rows0 fuel f1 h0 FR0 LR0 Hat1 Hr0). reflexivity.
Qed.
End Overlap.
