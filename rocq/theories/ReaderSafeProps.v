(** * Property C96: reading a file of any content *)
From Verif Require Export ReaderSafe ReaderProps.
From Verif Require Export StrSpec StrModel.
Import ReaderExample.
Open Scope Z_scope.

(** ** C96 *)
(** full property: reading any file is free of undefined behaviour; proved: of any but the overflow of an [int], and
    of that as well if the file has at most 46340 line ends *)
Theorem C96_log_partial : forall N, sound_stod N -> forall files fuel (r : LogReader N),
  memory_safe (log_read N files fuel r) /\
  (forall content, files (lr_name N r) = Some content -> line_ends content <= 46340 -> defined (log_read N files fuel r)).
Proof.
  intros N Hs files fuel r. pose proof (log_safe N Hs files fuel r) as H. split.
  - intros u E. apply (H u E).
  - intros t Hf L u E. destruct (H u E) as (_ & t' & Hf' & L'). rewrite Hf in Hf'. injection Hf' as <-. lia.
Qed.
Print Assumptions C96_log_partial.

(** pun files: if line ends times characters, or a line, are not too many *)
Theorem C96_pun_partial : forall N, sound_stod N -> forall files fuel (r : PunReader N),
  memory_safe (pun_read N files fuel r) /\
  (forall content, files (pr_name N r) = Some content -> len content <= INT_MAX -> (line_ends content + 1) * len content <= 15 * INT_MAX ->
     defined (pun_read N files fuel r)).
Proof.
  intros N Hs files fuel r. pose proof (pun_safe N Hs files fuel r) as H. split.
  - intros u E. apply (H u E).
  - intros t Hf L1 L2 u E. destruct (H u E) as (_ & t' & Hf' & [L'|L']); rewrite Hf in Hf'; injection Hf' as <-; lia.
Qed.
Print Assumptions C96_pun_partial.
(** in particular for files of up to 179000 characters *)
Theorem C96_small_files : forall N, sound_stod N -> forall files fuel name content, files name = Some content -> len content <= 179000 ->
  (line_ends content <= 46340 -> forall r : LogReader N, lr_name N r = name -> defined (log_read N files fuel r)) /\
  (forall r : PunReader N, pr_name N r = name -> defined (pun_read N files fuel r)).
Proof.
  intros N Hs files fuel name t Hf L. split.
  - intros Le r En. apply (proj2 (C96_log_partial N Hs files fuel r) t); [congruence|auto].
  - intros r En. pose proof (ends_len t) as Hl. pose proof (ends_nonneg t). apply (proj2 (C96_pun_partial N Hs files fuel r) t); [congruence|change INT_MAX with 2147483647; lia|change INT_MAX with 2147483647; nia].
Qed.
Print Assumptions C96_small_files.

(** refuted: the matrix of an overlap section with more than 46340 rows overflows an [int] *)
Theorem C96_overflow_refuted : forall N name r files, LogReader_new N name = Ok r ->
  forall pre h ls n v more tail, Forall (fun x => is_line x /\ no_mark x) pre -> is_line h -> begins KOverlap h -> 46340 < n < INT_MAX -> overlap_table N n v ls ->
  files name = Some (text (pre ++ h :: ls ++ more) ++ tail) ->
  exists bound, forall fuel, (bound <= fuel)%nat -> log_read N files fuel r = Undef SignedOverflow.
Proof.
  intros N name r files Hn pre h ls n v more tail Hp Lh Bh [H5 Hi] (t & (blocks & -> & FB & LB) & Ht) Hf.
  assert (Sec : forall f fuel d, at_ f (concat blocks ++ more) tail -> (length (concat blocks) < fuel)%nat -> OverlapSectionReader N fuel f d = Undef SignedOverflow).
  { intros f fuel d Hat Hfu. clear Hf Hp. 
    assert (K0 : 1 <= (n - 1) / 5) by (apply Z.div_le_lower_bound; lia).
    rewrite range_cons in FB by lia. inversion FB as [|? ? ? ? (h0 & rows0 & -> & _ & FR0) FB1]; subst. clear FB.
    rewrite range_cons in FB1 by lia. inversion FB1 as [|? ? ? ? (h1 & rows1 & -> & Hw1 & FR1) FB2]; subst. clear FB1.
    cbn [concat app] in LB, Hat, Hfu. inversion LB as [|? ? Lh0 LB1]; subst. apply Forall_app in LB1 as [LR0 LB1]. inversion LB1 as [|? ? Lh1 LB2]; subst.
    unfold OverlapSectionReader. destruct (getl_line f h0 _ tail [] Hat Lh0) as (f1 & -> & Hat1 & _).
    rewrite <- app_assoc in Hat1. cbn [app] in Hat1. rewrite (range_cons (5 * (0 + 1) + 1)) in Hw1 by lia. cbn [map] in Hw1.
    assert (H61 : stoi (dec (5 * (0 + 1) + 1)) = Ok 6) by (change (5 * (0 + 1) + 1) with 6; vm_compute; reflexivity).
    assert (Nr1 : not_row (n + 1) h1) by (right; do 2 eexists; exists 6; split; [exact Hw1|]; split; [exact H61|lia]).
    destruct (ov_first_ok N v n t Ht Hi h1 _ tail Lh1 Nr1 ltac:(lia) rows0 fuel f1 h0 FR0 LR0 Hat1) as (f2 & E2 & Hat2).
    { cbn [length] in Hfu. rewrite app_length in Hfu. lia. }
    rewrite E2. cbn [bind]. unfold Matrix_new2. destruct (Z.ltb_spec n 1); [lia|]. unfold imul, ichk, is_intb.
    destruct (Z.leb_spec (n * n) INT_MAX) as [B|B]; [change INT_MAX with 2147483647 in B; nia|]. rewrite andb_false_r. reflexivity. }
  rewrite (log_new_data _ _ _ Hn). exists (length pre + length (concat blocks) + 2)%nat. intros fuel Hfuel. unfold log_read. cbn [lr_name lr_pos lr_data]. unfold read. rewrite Hf.
  generalize (mkLog N [] [] None [] []) as d. intros d.
  assert (G : forall fuel f line, at_ f (pre ++ h :: concat blocks ++ more) tail -> (length pre + length (concat blocks) + 2 <= fuel)%nat -> read_loop log_headers (log_section N) fuel f line d = Undef SignedOverflow).
  { clear Hfuel Hf. induction Hp as [|x pre [Lx Nx] Hp IH]; intros fu f line Hat Hfu; (destruct fu as [|fu]; [cbn [length] in Hfu; lia|]); cbn [read_loop app] in *.
    - destruct (getl_line f h _ tail line Hat Lh) as (f1 & -> & Hat1 & _). rewrite (proj1 (proj2 Hat1)), (begins_start _ _ Bh). cbn [tag_of].
      change (log_section N fu $"Overlap" f1 d) with (OverlapSectionReader N fu f1 d). cbn [length] in Hfu.
      rewrite (Sec f1 fu d Hat1) by lia. reflexivity.
    - destruct (getl_line f x _ tail line Hat Lx) as (f1 & -> & Hat1 & _). rewrite (proj1 (proj2 Hat1)), (no_mark_start _ Nx). cbn [bind].
      apply IH; [apply (tell_at _ _ _ Hat1)|cbn [length] in Hfu; lia]. }
  rewrite G; [reflexivity| |auto]. unfold at_, left_in. cbn [fid s_eof s_fail s_pos s_all skipn]. auto.
Qed.
Print Assumptions C96_overflow_refuted.

(** such a file exists: a line is its words with blanks between them *)
Fixpoint gaps (ws : list str) : list (str * str) :=
  match ws with [] => [] | [w] => [(w, [])] | w :: t => (w, $" ") :: gaps t end.
Definition line_of (ws : list str) : str := weave $" " (gaps ws).
Lemma gaps_words ws : map fst (gaps ws) = ws.
Proof. induction ws as [|w ws IH]; [reflexivity|]. destruct ws; [reflexivity|]. change (gaps (w :: s :: ws)) with ((w, $" ") :: gaps (s :: ws)). cbn [map fst]. now rewrite IH. Qed.
Lemma blank_white : white $" ". Proof. intros c [<-|[]]. cbn. auto. Qed.
Lemma gaps_woven ws : Forall word ws -> woven $" " (gaps ws) .
Proof.
  induction 1 as [|w ws W F IH]; [split; [apply blank_white|auto]|]. destruct ws as [|w2 ws].
  - cbn [gaps woven]. repeat split; auto using blank_white; try apply W; try congruence. intros c [].
  - change (gaps (w :: w2 :: ws)) with ((w, $" ") :: gaps (w2 :: ws)). cbn [woven]. split; [apply blank_white|]. split; [auto|]. split; [discriminate|exact IH].
Qed.
Lemma line_cons w w2 ws : line_of (w :: w2 :: ws) = $" " ++ w ++ line_of (w2 :: ws). Proof. reflexivity. Qed.
Lemma line_row ws : Forall word ws -> ws <> [] -> table_row (line_of ws) ws.
Proof.
  intros F Ne. split; [exists $" ", (gaps ws); split; [apply gaps_woven; auto|]; split; [reflexivity|apply gaps_words]|].
  induction F as [|w ws W F IH]; [congruence|]. destruct ws as [|w2 ws].
  - intros c t E. assert (E2 : $" " ++ w = t ++ [c]) by (rewrite <- E; unfold line_of; cbn [gaps weave]; now rewrite app_nil_r).
    destruct W as [Wn Wn2]. destruct (exists_last Wn) as (w' & c' & ->). rewrite app_assoc in E2. apply app_inj_tail in E2 as [_ ->]. apply Wn2. apply in_or_app. right. left. auto.
  - rewrite line_cons. intros c t E. assert (Ln : line_of (w2 :: ws) <> []) by (unfold line_of; destruct ws; discriminate).
    destruct (exists_last Ln) as (l' & c' & El). rewrite El, !app_assoc in E. apply app_inj_tail in E as [_ <-]. eapply (IH ltac:(discriminate)); eauto.
Qed.
Lemma line_is ws : Forall word ws -> is_line (line_of ws).
Proof.
  intros F. induction F as [|w ws W F IH]; [intros [H|[]]; discriminate|]. assert (Nw : ~ In nl w) by (intros I; apply (proj2 W nl I); cbn; auto 10). destruct ws as [|w2 ws].
  - unfold line_of. cbn [gaps weave]. rewrite app_nil_r. intros I. apply in_app_or in I as [[I|[]]|I]; [discriminate|auto].
  - rewrite line_cons. intros I. apply in_app_or in I as [[I|[]]|I]; [discriminate|]. apply in_app_or in I as [I|I]; auto.
Qed.
Lemma dec_word i : 1 <= i -> word (dec i).
Proof.
  intros H. unfold dec. destruct (Z.ltb_spec i 0); [lia|]. destruct (dec_nonneg_digits i ltac:(lia)) as (ds & -> & Nd & F & _). split; [destruct ds; [congruence|discriminate]|].
  intros c I. apply in_map_iff in I as (d & <- & Id). rewrite Forall_forall in F. destruct (digit_facts d (F d Id)) as (_ & _ & Sp & _). apply is_space_nin. auto.
Qed.
Definition zero_text : str := $"0.000000D+00".
Definition block_of (n b : Z) : list str :=
  line_of (map dec (range (5 * b + 1) (Z.min n (5 * b + 5)))) ::
  map (fun i => line_of (dec i :: map (fun _ => zero_text) (range (5 * b + 1) (Z.min i (5 * b + 5))))) (range (5 * b + 1) n).
Definition zeros (n : Z) : list str := concat (map (block_of n) (range 0 ((n - 1) / 5))).
Lemma zeros_table n : 1 <= n -> overlap_table D n (fun _ _ => n_mul D (0, -6) (n_pow10 D (0, 0))) (zeros n).
Proof.
  intros Hn. exists (fun _ _ => zero_text). split; [|intros i j _ _; apply coef_b; vm_compute; reflexivity].
  assert (W0 : word zero_text) by (split; [discriminate|]; intros c I; apply is_space_nin; cbn in I; repeat (destruct I as [<-|I]; [reflexivity|]); destruct I).
  assert (Wr : forall i b, 0 <= b -> 5 * b + 1 <= i -> Forall word (dec i :: map (fun _ : Z => zero_text) (range (5 * b + 1) (Z.min i (5 * b + 5))))).
  { intros i b Hb Hi. constructor; [apply dec_word; lia|]. apply Forall_forall. intros w I. apply in_map_iff in I as (? & <- & _). exact W0. }
  assert (Wh : forall b, 0 <= b -> Forall word (map dec (range (5 * b + 1) (Z.min n (5 * b + 5))))).
  { intros b Hb. apply Forall_forall. intros w I. apply in_map_iff in I as (i & <- & I). apply range_in in I. apply dec_word. lia. }
  assert (Rg : Forall (fun b => 0 <= b /\ 5 * b + 1 <= n) (range 0 ((n - 1) / 5))).
  { apply Forall_forall. intros b I. apply range_in in I. pose proof (Z.mul_div_le (n - 1) 5 ltac:(lia)). lia. }
  exists (map (block_of n) (range 0 ((n - 1) / 5))). split; [reflexivity|]. unfold zeros. revert Rg. generalize (range 0 ((n - 1) / 5)). intros bs Rg. split.
  - induction Rg as [|b bs [Hb Hbn] Rg IH]; [constructor|]. cbn [map]. constructor; [|exact IH]. unfold block_of. eexists _, _. split; [reflexivity|]. split.
    + apply line_row; [auto|]. rewrite range_cons by lia. discriminate.
    + rewrite <- (map_id (range (5 * b + 1) n)) at 1. apply Forall2_map_r. intros i I. apply range_in in I. apply line_row; [apply Wr; lia|discriminate].
  - induction Rg as [|b bs [Hb Hbn] Rg IH]; [constructor|]. cbn [map concat]. apply Forall_app. split; [|exact IH]. unfold block_of. constructor; [apply line_is; auto|].
    apply Forall_forall. intros l I. apply in_map_iff in I as (i & <- & I). apply range_in in I. apply line_is. apply Wr; lia.
Qed.
Example C96_overflow_example : exists r, LogReader_new D $"big.log" = Ok r /\ is_line $" *** Overlap ***" /\ begins KOverlap $" *** Overlap ***" /\
  overlap_table D 46341 (fun _ _ => n_mul D (0, -6) (n_pow10 D (0, 0))) (zeros 46341).
Proof. eexists. split; [reflexivity|]. split; [apply line_b; reflexivity|]. split; [apply begins_b; reflexivity|]. apply zeros_table. lia. Qed.
(** the hypotheses about the conversions and the files are met by the concrete ones; malformed files are read to an exception *)
Example C96_example : sound_stod D /\ (exists r, LogReader_new D $"x.log" = Ok r /\
  log_read D (fun _ => Some (text [$" *** Overlap ***"; $"   1"; $"   1 0.1D+00 0.2D+00"; $"   7"])) 20 r = Exit 1 /\
  log_read D (fun _ => Some $" *** Overlap ***") 20 r = Throw InvalidArgument) /\
  line_ends (text [$" *** Overlap ***"; $"   1"; $"   1 0.1D+00 0.2D+00"; $"   7"]) = 4.
Proof.
  split; [|split; [|vm_compute; reflexivity]].
  - intros s u. cbn [n_stod D decimals]. destruct (parse_decimal s); discriminate.
  - eexists. split; [reflexivity|]. split; vm_compute; reflexivity.
Qed.
