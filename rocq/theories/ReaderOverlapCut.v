(** * Property C72: overlap tables that end after any whole line *)
From Verif Require Import ParserWf.
From Verif Require Export ReaderTruncProps.
From Verif Require Export StrSpec StrModel.
Import ReaderExample.
Open Scope Z_scope.

(** specification: the table of an n x n matrix is printed in blocks of five columns; block k (from 0) takes one line of column
    numbers and one line for each of the rows 5k+1 ... n.  Lines before block s: *)
Definition lines_before (n s : Z) : Z := fold_right Z.add 0 (map (fun k => n - 5 * k + 1) (range 0 (s - 1))).
(** the line of the table, counted from 1, on which element (i,j), j <= i, is printed *)
Definition printed_line (n i j : Z) : Z := let k := (j - 1) / 5 in lines_before n k + 1 + (i - 5 * k).

Lemma range_snoc lo hi : lo <= hi + 1 -> range lo (hi + 1) = range lo hi ++ [hi + 1].
Proof.
  intros H. unfold range. replace (Z.to_nat (hi + 1 - lo + 1)) with (Z.to_nat (hi - lo + 1) + 1)%nat by lia.
  rewrite seq_app, map_app. cbn [seq map]. do 2 f_equal. lia.
Qed.
Lemma before_0 n : lines_before n 0 = 0. Proof. reflexivity. Qed.
Lemma before_next n s : 0 <= s -> lines_before n (s + 1) = lines_before n s + (n - 5 * s + 1).
Proof.
  intros H. unfold lines_before. replace (s + 1 - 1) with (s - 1 + 1) by lia. rewrite range_snoc by lia. rewrite map_app, fold_right_app. cbn [map fold_right].
  replace (s - 1 + 1) with s by lia. set (l := map _ _). clearbody l. induction l as [|x l IH]; cbn [fold_right]; lia.
Qed.
Lemma before_block s k : 0 <= k <= 4 -> (5 * s + 1 + k - 1) / 5 = s.
Proof. intros H. replace (5 * s + 1 + k - 1) with (k + s * 5) by lia. rewrite Z.div_add by lia. rewrite Z.div_small; lia. Qed.
Lemma printed_in n s a b : 0 <= s -> 5 * s + 1 <= b <= 5 * s + 5 -> printed_line n a b = lines_before n s + 1 + (a - 5 * s).
Proof. intros Hs Hb. unfold printed_line. replace b with (5 * s + 1 + (b - 5 * s - 1)) by lia. rewrite before_block by lia. reflexivity. Qed.

Lemma F2_len {A B} (P : A -> B -> Prop) xs ys : Forall2 P xs ys -> length xs = length ys.
Proof. induction 1; cbn [length]; congruence. Qed.

Lemma F2_cons {A B} (P : A -> B -> Prop) x xs y ys : Forall2 P (x :: xs) (y :: ys) -> P x y /\ Forall2 P xs ys.
Proof. intros H. inversion H; auto. Qed.
(** ** lines still ahead of a file that ends with a newline *)
Definition ahead (f : fstate) (line : str) (ys : list str) : Prop := at_ f ys [] \/ (ys = [] /\ done f /\ line = []).
Lemma getl_ahead f line y ys : is_line y -> ahead f line (y :: ys) -> exists f', getl f line = (y, f') /\ ahead f' y ys.
Proof. intros L [H|[H _]]; [|discriminate]. destruct (getl_line f y ys [] line H L) as (f' & E & H' & _). exists f'. split; [auto|left; auto]. Qed.
Lemma getl_none f line : ahead f line [] -> exists f', getl f line = ([], f') /\ ahead f' [] [].
Proof.
  intros [H|(_ & D & ->)].
  - destruct (getl_tail f [] line H ltac:(intros [])) as (f' & E & D & _). exists f'. split; [auto|right; auto].
  - destruct (getl_done f [] D) as (f' & E & D' & _). exists f'. split; [auto|right; auto].
Qed.

Section Cut.
Context (N : nums).
Notation num := (num N).

Definition row_step (start : Z) := fun sectionCoef (q : fstate * str * mat num) =>
                let '(f, line, m) := q in
                let '(line, f) := getl f line in
                let '(_, i) := next (iss line) [] in
                m <- ov_row N (S (S (length line))) i (sectionCoef + 1) (start + 1) m ;;
                Ok (f, line, m).
Definition block_step (n : Z) := fun section (p : fstate * str * mat num) =>
         let start := 5 * (section - 1) in
         q <- for_up start (n - 1) (row_step start) p ;;
         let '(f, line, m) := q in
         let '(line, f) := getl f line in
         Ok (f, line, m).

Lemma rows_none start hi f line m : ahead f line [] -> exists f' line', for_up start hi (row_step start) (f, line, m) = Ok (f', line', m) /\ ahead f' line' [].
Proof.
  intros H. destruct (Z.le_gt_cases start (hi + 1)) as [Hle|Hgt]; [|rewrite for_up_empty by lia; exists f, line; auto].
  assert (G : forall k, start <= k <= hi + 1 -> forall f line m, ahead f line [] -> exists f' line', for_up k hi (row_step start) (f, line, m) = Ok (f', line', m) /\ ahead f' line' []).
  { intros k. remember (Z.to_nat (hi + 1 - k)) as j eqn:Ej. revert k Ej. induction j as [|j IH]; intros k Ej Hk f0 l0 m0 H0.
    - rewrite for_up_empty by lia. exists f0, l0. auto.
    - rewrite for_up_step by lia. unfold row_step at 1. destruct (getl_none f0 l0 H0) as (f1 & -> & H1). rewrite next_empty. cbn [length ov_row i_eof bind]. apply IH; [lia|lia|auto]. }
  apply G; [lia|auto].
Qed.
Lemma blocks_none n s hi f line m : ahead f line [] -> exists f' line', for_up s hi (block_step n) (f, line, m) = Ok (f', line', m) /\ ahead f' line' [].
Proof.
  intros H. remember (Z.to_nat (hi + 1 - s)) as j eqn:Ej. revert s Ej f line m H. induction j as [|j IH]; intros s Ej f line m H.
  - rewrite for_up_empty by lia. exists f, line. auto.
  - rewrite for_up_step by lia. unfold block_step at 1. cbv zeta. destruct (rows_none (5 * (s - 1)) (n - 1) f line m H) as (f1 & l1 & -> & H1). cbn [bind].
    destruct (getl_none f1 l1 H1) as (f2 & -> & H2). cbn [bind]. apply IH; [lia|auto].
Qed.

Variable v : Z -> Z -> num.
Variable n : Z.
Variable t : Z -> Z -> str.
Hypothesis Ht : forall i j, 1 <= j <= i -> i <= n -> coef_text N (t i j) (v i j).
Hypothesis Hint : n < INT_MAX.

(** ** a later block of which [q] rows are left *)
Lemma rows_cut start rest : 0 <= start -> start mod 5 = 0 -> forall rows k q f line m P,
  Forall2 (fun i l => table_row l (dec i :: map (t i) (range (start + 1) (Z.min i (start + 5))))) (range (k + 1) n) rows -> Forall is_line rows ->
  start <= k <= n -> ahead f line (firstn q (rows ++ rest)) -> tri N v n m P ->
  exists f' line' m', for_up k (n - 1) (row_step start) (f, line, m) = Ok (f', line', m') /\ ahead f' line' (firstn (q - length rows) rest) /\
    tri N v n m' (fun a b => P a b || ((k <? a) && (a <=? k + Z.of_nat q) && (start <? b) && (b <=? start + 5))).
Proof.
  intros Hs Hm. induction rows as [|r rows IH]; intros k q f line m P F L Hk Hat T.
  - assert (k = n) as ->. { destruct (Z.eq_dec k n); auto. rewrite range_cons in F by lia. inversion F. }
    rewrite for_up_empty by lia. exists f, line, m. split; [auto|]. cbn [length app] in *. rewrite Nat.sub_0_r. split; [auto|]. eapply tri_ext; [exact T|]. intros a b Hb Ha. cbv beta.
    destruct (Z.ltb_spec n a); [lia|]. cbn [andb]. now rewrite orb_false_r.
  - assert (k < n). { destruct (Z.eq_dec k n); [|lia]. subst. rewrite range_nil in F by lia. inversion F. }
    rewrite range_cons in F by lia. inversion F as [|? ? ? ? Hr F2]; subst. inversion L as [|? ? Lr L2]; subst.
    destruct q as [|q].
    { cbn [firstn] in Hat. destruct (Z.eq_dec k start) as [->|]; [|]. 
      - destruct (rows_none start (n - 1) f line m Hat) as (f' & l' & E & H'). exists f', l', m. split; [auto|]. cbn [Nat.sub]. split; [destruct rest; auto|].
        eapply tri_ext; [exact T|]. intros a b Hb Ha. cbv beta. destruct (Z.ltb_spec start a), (Z.leb_spec a (start + Z.of_nat 0)); cbn [andb]; rewrite ?orb_false_r; auto; lia.
      - assert (G : exists f' line', for_up k (n - 1) (row_step start) (f, line, m) = Ok (f', line', m) /\ ahead f' line' []).
        { clear - Hat. remember (Z.to_nat (n - k)) as j eqn:Ej. revert k f line m Ej Hat. induction j as [|j IH]; intros k f line m Ej Hat.
          - rewrite for_up_empty by lia. exists f, line. auto.
          - rewrite for_up_step by lia. unfold row_step at 1. destruct (getl_none f line Hat) as (f1 & -> & H1). rewrite next_empty. cbn [length ov_row i_eof bind]. apply IH; [lia|auto]. }
        destruct G as (f' & l' & E & H'). exists f', l', m. split; [auto|]. cbn [Nat.sub]. split; [destruct rest; auto|].
        eapply tri_ext; [exact T|]. intros a b Hb Ha. cbv beta. destruct (Z.ltb_spec k a), (Z.leb_spec a (k + Z.of_nat 0)); cbn [andb]; rewrite ?orb_false_r; auto; lia. }
    cbn [app firstn] in Hat. rewrite for_up_step by lia. unfold row_step at 1. destruct (getl_ahead f line r _ Lr Hat) as (f1 & -> & Hat1).
    destruct (next_holds _ _ _ [] (holds_iss _ _ _ Hr)) as (i' & -> & Hi'). pose proof (row_bound _ _ Hr) as Bd. cbn [length] in Bd. rewrite map_length, range_len in Bd.
    destruct (ov_row_ok N v n t Ht (k + 1) (Z.min (k + 1) (start + 5)) ltac:(lia) ltac:(lia) _ (start + 1) i' m _ (S (S (length r))) T ltac:(lia) eq_refl Hi') as (m1 & E1 & T1); [lia|].
    rewrite E1. cbn [bind]. destruct (IH (k + 1) q f1 r m1 _ F2 L2 ltac:(lia) Hat1 T1) as (f2 & l2 & m2 & E2 & H2 & T2). exists f2, l2, m2. split; [auto|]. cbn [length Nat.sub]. split; [auto|].
    eapply tri_ext; [exact T2|]. intros a b Hb Ha. cbv beta. destruct (P a b); cbn [orb]; auto. replace (k + Z.of_nat (S q)) with (k + 1 + Z.of_nat q) by lia.
    destruct (Z.eqb_spec a (k + 1)), (Z.leb_spec (start + 1) b), (Z.leb_spec b (Z.min (k + 1) (start + 5))), (Z.ltb_spec (k + 1) a), (Z.ltb_spec k a), (Z.leb_spec a (k + 1 + Z.of_nat q)), (Z.ltb_spec start b), (Z.leb_spec b (start + 5)); cbn [andb orb]; auto; lia.
Qed.

(** ** all blocks after the first, [Q] lines of the table being left *)
Lemma blocks_cut Q : 6 <= n -> forall blocks s rows f line m, Forall2 (overlap_block n t) (range s ((n - 1) / 5)) blocks -> Forall is_line (concat blocks) ->
  Forall2 (fun i l => table_row l (dec i :: map (t i) (range (5 * (s - 1) + 1) (Z.min i (5 * (s - 1) + 5))))) (range (5 * (s - 1) + 1) n) rows -> Forall is_line rows ->
  2 <= s <= (n - 1) / 5 + 1 -> ahead f line (firstn (Z.to_nat (Q - lines_before n (s - 1) - 1)) (rows ++ concat blocks)) ->
  tri N v n m (fun a b => (b <=? 5 * (s - 1)) && (printed_line n a b <=? Q)) ->
  exists f' line' m', for_up s ((n - 1) / 5 + 1) (block_step n) (f, line, m) = Ok (f', line', m') /\ ahead f' line' [] /\
    tri N v n m' (fun a b => printed_line n a b <=? Q).
Proof.
  intros H6. pose proof (kmax_bounds n H6) as KB.
  induction blocks as [|bl blocks IH]; intros s rows f line m FB LB FR LR Hs Hat T.
  - assert (s = (n - 1) / 5 + 1) as ->. { destruct (Z.le_gt_cases s ((n - 1) / 5)); [|lia]. rewrite range_cons in FB by lia. inversion FB. }
    rewrite for_up_step by lia. unfold block_step at 1. cbv zeta.
    replace ((n - 1) / 5 + 1 - 1) with ((n - 1) / 5) in * by lia. set (s0 := (n - 1) / 5) in *. clearbody s0. cbn [concat] in Hat.
    destruct (rows_cut (5 * s0) [] ltac:(lia) ltac:(rewrite Z.mul_comm; apply Z_mod_mult) rows (5 * s0) _ f line m _ FR LR ltac:(lia) Hat T) as (f1 & l1 & m1 & E1 & Hat1 & T1).
    rewrite E1. cbn [bind]. rewrite firstn_nil in Hat1. destruct (getl_none f1 l1 Hat1) as (f2 & -> & Hat2). cbn [bind]. rewrite for_up_empty by lia. exists f2, [], m1. split; [auto|]. split; [auto|].
    eapply tri_ext; [exact T1|]. intros a b Hb Ha. cbv beta. destruct (Z.leb_spec b (5 * s0)).
    + cbn [andb]. destruct (Z.ltb_spec (5 * s0) b); [lia|]. rewrite !andb_false_r. cbn [andb]. now rewrite orb_false_r.
    + rewrite (printed_in n s0) by lia. cbn [andb orb]. destruct (Z.ltb_spec (5 * s0) a), (Z.leb_spec a (5 * s0 + Z.of_nat (Z.to_nat (Q - lines_before n s0 - 1)))), (Z.ltb_spec (5 * s0) b), (Z.leb_spec b (5 * s0 + 5)), (Z.leb_spec (lines_before n s0 + 1 + (a - 5 * s0)) Q); cbn [andb]; auto; lia.
  - assert (s <= (n - 1) / 5). { destruct (Z.le_gt_cases s ((n - 1) / 5)); [lia|]. rewrite range_nil in FB by lia. inversion FB. }
    rewrite range_cons in FB by lia. inversion FB as [|? ? ? ? (h & rows2 & -> & _ & FR2) FB2]; subst.
    cbn [concat app] in LB, Hat. inversion LB as [|? ? Lh LB2]; subst. apply Forall_app in LB2 as [LR2 LB2].
    rewrite for_up_step by lia. unfold block_step at 1. cbv zeta.
    assert (Lrows : Z.of_nat (length rows) = n - 5 * (s - 1)). { apply F2_len in FR. rewrite range_len in FR. lia. }
    pose proof (before_next n (s - 1) ltac:(lia)) as Hnx. replace (s - 1 + 1) with s in Hnx by lia.
    destruct (rows_cut (5 * (s - 1)) (h :: rows2 ++ concat blocks) ltac:(lia) ltac:(rewrite Z.mul_comm; apply Z_mod_mult) rows (5 * (s - 1)) _ f line m _ FR LR ltac:(lia) Hat T) as (f1 & l1 & m1 & E1 & Hat1 & T1).
    rewrite E1. cbn [bind].
    assert (Hat2 : exists y f2, getl f1 l1 = (y, f2) /\ ahead f2 y (firstn (Z.to_nat (Q - lines_before n (s + 1 - 1) - 1)) (rows2 ++ concat blocks))).
    { replace (s + 1 - 1) with s by lia. destruct (Z.to_nat (Q - lines_before n (s - 1) - 1) - length rows)%nat as [|q'] eqn:Eq.
      - cbn [firstn] in Hat1. destruct (getl_none f1 l1 Hat1) as (f2 & E2 & H2). exists [], f2. split; [auto|]. replace (Z.to_nat (Q - lines_before n s - 1)) with O by lia. exact H2.
      - cbn [firstn] in Hat1. destruct (getl_ahead f1 l1 h _ Lh Hat1) as (f2 & E2 & H2). exists h, f2. split; [auto|]. replace (Z.to_nat (Q - lines_before n s - 1)) with q' by lia. exact H2. }
    destruct Hat2 as (y & f2 & -> & Hat2). cbn [bind].
    apply (IH (s + 1) rows2 f2 y m1); auto; try lia.
    + replace (s + 1 - 1) with s by lia. exact FR2.
    + replace (5 * (s + 1 - 1)) with (5 * (s - 1) + 5) by lia. eapply tri_ext; [exact T1|]. intros a b Hb Ha. cbv beta. destruct (Z.leb_spec b (5 * (s - 1))).
      * cbn [andb]. destruct (Z.ltb_spec (5 * (s - 1)) b); [lia|]. rewrite !andb_false_r. cbn [andb]. rewrite orb_false_r. destruct (Z.leb_spec b (5 * (s - 1) + 5)); [auto|lia].
      * cbn [andb orb]. destruct (Z.leb_spec b (5 * (s - 1) + 5)); [|cbn [andb]; now rewrite andb_false_r]. rewrite (printed_in n (s - 1)) by lia.
        destruct (Z.ltb_spec (5 * (s - 1)) a), (Z.leb_spec a (5 * (s - 1) + Z.of_nat (Z.to_nat (Q - lines_before n (s - 1) - 1)))), (Z.ltb_spec (5 * (s - 1)) b), (Z.leb_spec (lines_before n (s - 1) + 1 + (a - 5 * (s - 1))) Q); cbn [andb]; auto; lia.
Qed.

(** ** the first block, cut after some of its rows *)
Lemma first_rows_end : forall rows k fuel f line cc acc, Forall2 (fun i l => table_row l (dec i :: map (t i) (range 1 (Z.min i 5)))) (range (k + 1) n) rows -> Forall is_line rows ->
  0 <= k -> k <= n -> (k = n -> cc = dec n) -> 1 <= n -> ahead f line rows -> (length rows < fuel)%nat ->
  exists f1, ov_first N fuel f line cc k acc = Ok (f1, [], n, acc ++ map (rowvals N v) (range (k + 1) n)) /\ ahead f1 [] [].
Proof.
  induction rows as [|r rows IH]; intros k fuel f line cc acc F L Hk Hkn Hcc H1 Hat Hf; (destruct fuel as [|fuel]; [cbn [length] in Hf; lia|]).
  - assert (k = n) as ->. { destruct (Z.eq_dec k n); auto. rewrite range_cons in F by lia. inversion F. }
    rewrite (Hcc eq_refl). rewrite (range_nil (n + 1)) by lia. cbn [map]. rewrite app_nil_r. cbn [ov_first]. destruct (getl_none f line Hat) as (f1 & -> & H2).
    rewrite next_empty. rewrite (stoi_row n Hint n) by lia. cbn [bind]. destruct (Z.eqb_spec n (n + 1)); [lia|]. cbn [negb]. exists f1. auto.
  - cbn [ov_first]. assert (k < n). { destruct (Z.eq_dec k n); [|lia]. subst. rewrite range_nil in F by lia. inversion F. }
    rewrite range_cons in F by lia. inversion F as [|? ? ? ? Hr F2]; subst. inversion L as [|? ? Lr L2]; subst.
    destruct (getl_ahead f line r rows Lr Hat) as (f1 & -> & Hat1).
    destruct (next_holds _ _ _ cc (holds_iss _ _ _ Hr)) as (i' & -> & Hi'). rewrite (stoi_row n Hint) by lia. cbn [bind]. rewrite Z.eqb_refl. cbn [negb].
    pose proof (row_bound _ _ Hr) as Bd. cbn [length] in Bd.
    rewrite (ov_values_ok N (map (t (k + 1)) (range 1 (Z.min (k + 1) 5))) (map (v (k + 1)) (range 1 (Z.min (k + 1) 5)))); [|apply Forall2_map_r; intros j Ij; apply range_in in Ij; apply Ht; lia|auto|lia].
    cbn [bind app].
    destruct (IH (k + 1) fuel f1 r (dec (k + 1)) (acc ++ [map (v (k + 1)) (range 1 (Z.min (k + 1) 5))]) F2 L2) as (f2 & R & Hat2); [lia|lia|congruence|lia|auto|cbn [length] in Hf; lia|].
    rewrite R. exists f2. split; [|auto]. rewrite (range_cons (k + 1)) by lia. cbn [map]. rewrite <- app_assoc. reflexivity.
Qed.
End Cut.
Lemma before_ge n s : 1 <= s -> 5 * (s - 1) <= n -> n + 1 <= lines_before n s.
Proof.
  intros Hs Hn. remember (Z.to_nat (s - 1)) as k eqn:Ek. revert s Ek Hs Hn. induction k as [|k IH]; intros s Ek Hs Hn.
  - replace s with (0 + 1) by lia. rewrite before_next by lia. rewrite before_0. lia.
  - replace s with (s - 1 + 1) by lia. rewrite before_next by lia. specialize (IH (s - 1) ltac:(lia) ltac:(lia) ltac:(lia)). lia.
Qed.
Lemma printed_first n a b : 1 <= b <= 5 -> printed_line n a b = 1 + a.
Proof. intros H. rewrite (printed_in n 0) by lia. rewrite before_0. lia. Qed.
Lemma printed_later n a b : 5 < b -> b <= a -> a <= n -> n + 1 < printed_line n a b.
Proof.
  intros Hb Ha Hn. unfold printed_line. cbv zeta. pose proof (Z.div_mod (b - 1) 5 ltac:(lia)). pose proof (Z.mod_pos_bound (b - 1) 5 ltac:(lia)).
  pose proof (before_ge n ((b - 1) / 5) ltac:(lia) ltac:(lia)). lia.
Qed.
(** [printed_line] is where the element stands *)
Theorem C72_printed_line : forall n (t : Z -> Z -> str) ls i j, overlap_lines n t ls -> 1 <= j <= i -> i <= n ->
  exists before l after lo hi, ls = before ++ l :: after /\ Z.of_nat (length before) = printed_line n i j - 1 /\
    table_row l (dec i :: map (t i) (range lo hi)) /\ lo <= j <= hi.
Proof.
  intros n t ls i j (blocks & -> & FB & _) Hj Hi. set (k := (j - 1) / 5).
  pose proof (Z.div_mod (j - 1) 5 ltac:(lia)) as Dm. pose proof (Z.mod_pos_bound (j - 1) 5 ltac:(lia)) as Bm. fold k in Dm.
  assert (Hk : k <= (n - 1) / 5) by (apply Z.div_le_mono; lia).
  assert (G : forall bs s, 0 <= s <= k -> Forall2 (overlap_block n t) (range s ((n - 1) / 5)) bs ->
    exists before l after lo hi, concat bs = before ++ l :: after /\ Z.of_nat (length before) = printed_line n i j - 1 - lines_before n s /\ table_row l (dec i :: map (t i) (range lo hi)) /\ lo <= j <= hi).
  { clear FB. induction bs as [|b bs IH]; intros s Hs F.
    - rewrite range_cons in F by lia. inversion F.
    - rewrite range_cons in F by lia. inversion F as [|? ? ? ? (h & rows & -> & _ & FR) F2]; subst.
      destruct (Z.eq_dec s k) as [->|].
      + assert (Hr : range (5 * k + 1) n = range (5 * k + 1) (i - 1) ++ i :: range (i + 1) n).
        { clear - Dm Bm Hj Hi. remember (Z.to_nat (i - 1 - 5 * k)) as c eqn:Ec. assert (Hc : 5 * k + 1 <= i) by lia. clear Dm Bm Hj. set (lo := 5 * k + 1) in *.
          assert (Ec' : c = Z.to_nat (i - lo)) by lia. clearbody lo. clear Ec. revert lo Ec' Hc. induction c as [|c IHc]; intros lo Ec Hc.
          - assert (lo = i) as -> by lia. rewrite (range_nil i (i - 1)) by lia. cbn [app]. apply range_cons. lia.
          - rewrite (range_cons lo n), (range_cons lo (i - 1)) by lia. cbn [app]. f_equal. apply IHc; lia. }
        rewrite Hr in FR. apply Forall2_app_inv_l in FR as (r1 & r2 & F1 & F2' & ->). inversion F2' as [|? l ? r3 Hl F3]; subst.
        exists (h :: r1), l, (r3 ++ concat bs), (5 * k + 1), (Z.min i (5 * k + 5)). split; [cbn [concat app]; rewrite <- !app_assoc; reflexivity|].
        split; [|split; [exact Hl|lia]]. apply F2_len in F1. rewrite range_len in F1. cbn [length]. unfold printed_line. fold k. cbv zeta. lia.
      + destruct (IH (s + 1) ltac:(lia) F2) as (before & l & after & lo & hi & E & Lb & Hl & Hlo).
        exists (h :: rows ++ before), l, after, lo, hi. split; [cbn [concat app]; rewrite E, <- app_assoc; reflexivity|]. split; [|split; auto].
        apply F2_len in FR. rewrite range_len in FR. rewrite before_next in Lb by lia. cbn [length]. rewrite app_length. lia. }
  destruct (G blocks 0 ltac:(split; [lia|apply Z.div_pos; lia]) FB) as (before & l & after & lo & hi & E & Lb & Hl & Hlo). rewrite before_0 in Lb.
  exists before, l, after, lo, hi. split; [auto|]. split; [lia|]. auto.
Qed.
Print Assumptions C72_printed_line.

Lemma firstn_pre {A} (a b : list A) : a = firstn (length a) (a ++ b).
Proof. rewrite firstn_app, Nat.sub_diag, firstn_all. cbn [firstn]. now rewrite app_nil_r. Qed.
Lemma range_firstn k lo hi : lo + Z.of_nat k <= hi + 1 -> firstn k (range lo hi) = range lo (lo + Z.of_nat k - 1).
Proof.
  revert lo. induction k as [|k IH]; intros lo H; [rewrite (range_nil lo (lo + Z.of_nat 0 - 1)) by lia; reflexivity|].
  rewrite !(range_cons lo) by lia. cbn [firstn]. rewrite IH by lia. do 2 f_equal. lia.
Qed.
Lemma F2_firstn {A B} (P : A -> B -> Prop) k : forall xs ys, Forall2 P xs ys -> Forall2 P (firstn k xs) (firstn k ys).
Proof. induction k as [|k IH]; intros xs ys H; [constructor|]. destruct H; cbn [firstn]; constructor; auto. Qed.
Lemma Forall_first {A} (P : A -> Prop) k l : Forall P l -> Forall P (firstn k l).
Proof. revert l. induction k as [|k IH]; intros l H; [constructor|]. destruct H; cbn [firstn]; constructor; auto. Qed.

Lemma cut_section N v n t ys zs f d fuel : 1 <= n -> n * n <= INT_MAX -> (forall i j, 1 <= j <= i -> i <= n -> coef_text N (t i j) (v i j)) ->
  overlap_lines n t (ys ++ zs) -> at_ f ys [] -> (length ys + 1 < fuel)%nat -> let Q := Z.of_nat (length ys) in
  (Q <= 1 /\ OverlapSectionReader N fuel f d = Throw InvalidArgument) \/
  (2 <= Q /\ exists f' l' m, OverlapSectionReader N fuel f d = Ok (f', mkLog N (homoLevel N d) (orb_ N d) (Some m) (OREnergies N d) (xyz N d)) /\ ahead f' l' [] /\
     let k := Z.min n (Q - 1) in denotes m k k 1 (fun i j _ => if printed_line n (Z.max i j) (Z.min i j) <=? Q then v (Z.max i j) (Z.min i j) else n_zero N)).
Proof.
  intros H1 Hnn Ht (blocks & Els & FB & LB) Hat Hf Q. assert (Hi : n < INT_MAX) by (change INT_MAX with 2147483647 in *; nia).
  assert (K0 : 0 <= (n - 1) / 5) by (apply Z.div_pos; lia).
  rewrite range_cons in FB by lia. inversion FB as [|? ? ? ? (h0 & rows0 & -> & _ & FR0) FB1]; subst. clear FB. cbn [concat app] in Els.
  assert (L0 : Z.of_nat (length rows0) = n) by (apply F2_len in FR0; rewrite range_len in FR0; lia).
  rewrite Els in LB. pose proof (Forall_inv LB) as Lh0. apply Forall_inv_tail in LB as LB1. apply Forall_app in LB1 as [LR0 LB1].
  pose proof (firstn_pre ys zs) as Ey. rewrite Els in Ey.
  destruct ys as [|y ys].
  { left. split; [cbn [length] in Q; lia|]. unfold OverlapSectionReader. destruct (getl_none f [] (or_introl Hat)) as (f1 & -> & H2).
    destruct fuel as [|fuel]; [lia|]. cbn [ov_first]. destruct (getl_none f1 [] H2) as (f2 & -> & H3). rewrite next_empty. reflexivity. }
  cbn [app] in Els. injection Els as -> Els. cbn [length firstn] in Ey. injection Ey as Ey. cbn [length] in Q, Hf.
  destruct (getl_ahead f [] h0 ys Lh0 (or_introl Hat)) as (f1 & E1 & Hat1).
  destruct ys as [|y ys].
  { left. split; [cbn [length] in Q; lia|]. unfold OverlapSectionReader. rewrite E1.
    destruct fuel as [|fuel]; [lia|]. cbn [ov_first]. destruct (getl_none f1 h0 Hat1) as (f2 & -> & H3). rewrite next_empty. reflexivity. }
  set (ys1 := y :: ys) in *. assert (Hq : 1 <= Z.of_nat (length ys1)) by (unfold ys1; cbn [length]; lia). assert (EQ : Q = Z.of_nat (length ys1) + 1) by lia.
  clearbody ys1 Q. clear y ys. right. split; [lia|]. subst Q.
  destruct (Z.le_gt_cases (Z.of_nat (length ys1)) n) as [Hle|Hgt].
  - set (k := Z.of_nat (length ys1)) in *. rewrite Z.min_r by lia. replace (k + 1 - 1) with k by lia.
    assert (Er : ys1 = firstn (Z.to_nat k) rows0).
    { unfold k. rewrite Nat2Z.id. rewrite Ey at 1. rewrite firstn_app. replace (length ys1 - length rows0)%nat with O by lia. cbn [firstn]. now rewrite app_nil_r. }
    assert (FR : Forall2 (fun i l => table_row l (dec i :: map (t i) (range 1 (Z.min i 5)))) (range 1 k) ys1).
    { rewrite Er. replace (range 1 k) with (firstn (Z.to_nat k) (range 1 n)) by (rewrite range_firstn by lia; f_equal; lia). apply F2_firstn. exact FR0. }
    assert (LR : Forall is_line ys1) by (rewrite Er; apply Forall_first; auto).
    destruct (Matrix_new2_ok (n_zero N) k k) as (m0 & E0 & D0); [lia|lia|nia|]. destruct (fill_ok N v k m0 D0) as (m1 & Em & T1).
    assert (Htk : forall i j, 1 <= j <= i -> i <= k -> coef_text N (t i j) (v i j)) by (intros; apply Ht; lia).
    destruct (first_rows_end N v k t Htk ltac:(lia) ys1 0 fuel f1 h0 [] [] FR LR ltac:(lia) ltac:(lia) ltac:(lia) ltac:(lia) Hat1 ltac:(lia)) as (f2 & E2 & H2). cbn [app Z.add] in E2.
    destruct (blocks_none N k 2 (k / 5 + (if 0 <? k mod 5 then 1 else 0)) f2 [] m1 H2) as (f3 & l3 & E3 & H3).
    unfold OverlapSectionReader. rewrite E1, E2. cbn [bind]. rewrite E0. cbn [bind]. rewrite Em. cbn [bind].
    unfold block_step, row_step in E3. cbv zeta in E3 |- *. rewrite E3. cbn [bind]. exists f3, l3, m1. split; [reflexivity|]. split; [auto|].
    eapply denotes_ext; [exact T1|]. intros i j s (R1 & R2 & _). cbv beta. destruct (Z.leb_spec (Z.min i j) 5).
    + rewrite printed_first by lia. destruct (Z.leb_spec (1 + Z.max i j) (k + 1)); [auto|lia].
    + pose proof (printed_later n (Z.max i j) (Z.min i j) ltac:(lia) ltac:(lia) ltac:(lia)). destruct (Z.leb_spec (printed_line n (Z.max i j) (Z.min i j)) (k + 1)); [lia|auto].
  - rewrite Z.min_l by lia.
    assert (H6 : 6 <= n).
    { destruct (Z.le_gt_cases n 5); [|lia]. exfalso. rewrite (Z.div_small (n - 1) 5) in FB1 by lia. rewrite range_nil in FB1 by lia. apply F2_len in FB1. destruct l'; [|discriminate FB1]. cbn [concat] in Els. rewrite app_nil_r in Els. rewrite <- Els, app_length in L0. lia. }
    pose proof (kmax_bounds n H6) as KB.
    rewrite range_cons in FB1 by lia. destruct l' as [|bl l']; [inversion FB1|]. apply F2_cons in FB1 as [(h1 & rows1 & -> & Hw1 & FR1) FB2].
    cbn [concat app] in *. pose proof (Forall_inv LB1) as Lh1. apply Forall_inv_tail in LB1 as LB2. apply Forall_app in LB2 as [LR1 LB2].
    set (q := (length ys1 - length rows0 - 1)%nat).
    assert (Er : ys1 = rows0 ++ h1 :: firstn q (rows1 ++ concat l')).
    { rewrite Ey. rewrite firstn_app. rewrite firstn_all2 by lia. f_equal. replace (length ys1 - length rows0)%nat with (S q) by (unfold q; lia). reflexivity. }
    rewrite (range_cons (5 * (0 + 1) + 1)) in Hw1 by lia. cbn [map] in Hw1.
    assert (H61 : stoi (dec (5 * (0 + 1) + 1)) = Ok 6) by (change (5 * (0 + 1) + 1) with 6; vm_compute; reflexivity).
    assert (Nr1 : not_row (n + 1) h1) by (right; do 2 eexists; exists 6; split; [exact Hw1|]; split; [exact H61|lia]).
    assert (Hat1' : at_ f1 (rows0 ++ h1 :: firstn q (rows1 ++ concat l')) []). { rewrite <- Er. destruct Hat1 as [Hat1|(E & _)]; [exact Hat1|]. rewrite E in Hq. cbn [length] in Hq. lia. }
    destruct (Matrix_new2_ok (n_zero N) n n) as (m0 & E0 & D0); [lia|lia|lia|]. destruct (fill_ok N v n m0 D0) as (m1 & Em & T1).
    destruct (ov_first_ok N v n t Ht Hi h1 _ [] Lh1 Nr1 ltac:(lia) rows0 fuel f1 h0 FR0 LR0 Hat1' ltac:(lia)) as (f2 & E2 & Hat2).
    destruct (blocks_cut N v n t Ht (Z.of_nat (length ys1) + 1) H6 l' 2 rows1 f2 h1 m1 FB2 LB2 FR1 LR1 ltac:(lia)) as (f3 & l3 & m3 & E3 & H3 & T3).
    { left. replace (Z.to_nat (Z.of_nat (length ys1) + 1 - lines_before n (2 - 1) - 1)) with q; [exact Hat2|].
      unfold q. change (2 - 1) with (0 + 1). rewrite before_next by lia. rewrite before_0. lia. }
    { eapply tri_ext; [exact T1|]. intros a b Hb Ha. cbv beta. change (5 * (2 - 1)) with 5. destruct (Z.leb_spec b 5); [|auto]. rewrite printed_first by lia. destruct (Z.leb_spec (1 + a) (Z.of_nat (length ys1) + 1)); [auto|lia]. }
    unfold OverlapSectionReader. rewrite E1, E2. cbn [bind]. rewrite E0. cbn [bind]. rewrite Em. cbn [bind]. rewrite reads_eq by lia.
    unfold block_step, row_step in E3. cbv zeta in E3 |- *. rewrite E3. cbn [bind]. exists f3, l3, m3. split; [reflexivity|]. split; [auto|]. exact T3.
Qed.
(** refuted: a file that ends after any line of an overlap table from its first row on is accepted (as a smaller matrix if the first
    five columns are cut, with 0 for the elements that are missing otherwise); proved: before the first row it throws *)
Theorem C72_overlap_cut_refuted : forall N name r files items lines h n v ys zs, LogReader_new N name = Ok r -> files name = Some (text lines) ->
  log_before N [] (h :: ys) items lines -> is_line h -> begins KOverlap h -> 1 <= n -> n * n <= INT_MAX ->
  overlap_table N n v (ys ++ zs) -> let Q := Z.of_nat (length ys) in
  exists bound, forall fuel, (bound <= fuel)%nat ->
  (Q <= 1 /\ log_read N files fuel r = Throw InvalidArgument) \/
  (2 <= Q /\ exists r' m, log_read N files fuel r = Ok r' /\ getOverlapMatrix N r' = Ok m /\ let k := Z.min n (Q - 1) in
     denotes m k k 1 (fun i j _ => if printed_line n (Z.max i j) (Z.min i j) <=? Q then v (Z.max i j) (Z.min i j) else n_zero N)).
Proof.
  intros N name r files items lines h n v ys zs Hn Hf Hb Lh Bh H1 Hnn (t & Ho & Ht) Q. rewrite <- (app_nil_r (text lines)) in Hf. assert (Lt : is_line []) by (intros []).
  assert (LR : Forall is_line (h :: ys)). { constructor; [auto|]. destruct Ho as (_ & _ & _ & L). apply Forall_app in L. apply L. }
  apply (cut_log N name r files items lines (h :: ys) [] Hn Lt ltac:(discriminate) LR Hb Hf (fun x => (Q <= 1 /\ x = Throw InvalidArgument) \/
    (2 <= Q /\ exists r' m, x = Ok r' /\ getOverlapMatrix N r' = Ok m /\ let k := Z.min n (Q - 1) in
     denotes m k k 1 (fun i j _ => if printed_line n (Z.max i j) (Z.min i j) <=? Q then v (Z.max i j) (Z.min i j) else n_zero N))) (length ys + 4)%nat).
  intros fuel f line d Hfuel [Hat _] _. destruct fuel as [|fuel]; [lia|]. destruct (into N KOverlap h f _ [] line d fuel Lh Bh Hat) as (f1 & Hat1 & E). rewrite E. clear E.
  cbn [tag_of]. change (log_section N fuel $"Overlap" f1 d) with (OverlapSectionReader N fuel f1 d).
  destruct (cut_section N v n t ys zs f1 d fuel H1 Hnn Ht Ho Hat1 ltac:(lia)) as [[HQ E]|(HQ & f4 & l4 & m & E & H4 & Dm)]; rewrite E; cbn [bind]; [left; auto|right; split; [auto|]].
  assert (Dn : exists l5 f5, getl (tell f4) h = (l5, f5) /\ s_fail (fid f5) = true).
  { destruct H4 as [H4|(_ & D & _)].
    - destruct (tell_at _ _ _ H4) as (H5 & _). destruct (getl_tail (tell f4) [] h H5 Lt) as (g & -> & D & _ & _ & Fl). eauto.
    - destruct (tell_done f4 D) as [D2 _]. destruct (getl_done (tell f4) h D2) as (g & -> & _ & F). eauto. }
  destruct Dn as (l5 & f5 & Dn & F5). destruct fuel as [|fuel]; [lia|]. cbn [read_loop]. rewrite Dn, F5. cbn [bind fst snd].
  eexists _, m. split; [reflexivity|]. split; [reflexivity|]. exact Dm.
Qed.
Print Assumptions C72_overlap_cut_refuted.
(** every whole number of lines of the table of the example, after a coordinate table *)
Example C72_overlap_cut_example : exists h v ls, is_line h /\ begins KOverlap h /\ length ls = 9%nat /\ overlap_table D 6 v ls /\ printed_line 6 6 5 = 7 /\ printed_line 6 6 6 = 9 /\
  forall q, exists lines, ls = firstn q ls ++ skipn q ls /\ log_before D [] (h :: firstn q ls) [ex_coord] lines.
Proof.
  destruct (ex_overlap_ok [] []) as (Lh & Bh & _ & _ & Ho & _). eexists _, _, _. split; [exact Lh|]. split; [exact Bh|]. split; [|split; [exact Ho|]]; [reflexivity|].
  split; [reflexivity|]. split; [reflexivity|]. intros q. eexists. split; [symmetry; apply firstn_skipn|]. apply lb_item; [apply ex_coord_ok|constructor].
Qed.
