(** * Facts about the streams and the loop of FileReader::read *)
From Verif Require Export ReaderSpec StrFacts.
Open Scope Z_scope.

(** ** words *)
Lemma words_split l ws : words_of l ws <-> splitSt l = ws.
Proof.
  split.
  - intros (g0 & gs & W & -> & <-). apply splitSt_weave; auto.
  - intros <-. destruct (weave_exists l) as (g0 & gs & -> & W). exists g0, gs. rewrite splitSt_weave by auto. auto.
Qed.
Lemma found_occurs s sub : foundSubStrInStr s sub = true <-> occurs sub s. Proof. apply found_iff. Qed.
Lemma found_not s sub : foundSubStrInStr s sub = false <-> ~ occurs sub s.
Proof. rewrite <- found_iff. destruct (foundSubStrInStr s sub); intuition congruence. Qed.
Lemma trim_stripped s m : stripped s m -> trim s = m.
Proof. intros (a & b & Wa & Wb & -> & B & F). apply trim_unique; auto. Qed.
Lemma alphabetic_iff s : isAlphabetical s = true <-> alphabetic s. Proof. apply isAlphabetical_iff. Qed.
Lemma alphabetic_not s : isAlphabetical s = false <-> ~ alphabetic s.
Proof. rewrite <- alphabetic_iff. destruct (isAlphabetical s); intuition congruence. Qed.
Lemma word_solid w : word w -> begins_solid w /\ ends_solid w.
Proof.
  intros [_ H]. split; intros c t ->; apply H; [left; auto|apply in_or_app; right; left; auto].
Qed.
Lemma trim_word w : word w -> trim w = w.
Proof. intros H. destruct (word_solid w H). apply trim_stripped. exists [], []. rewrite app_nil_r. auto using white_nil. Qed.

(** what is left of a string stream *)
Definition holds (i : istr) (ws : list str) : Prop :=
  i_fail i = false /\ i_eof i = (match ws with [] => true | _ => false end) /\ splitSt (i_rest i) = ws /\ ends_solid (i_rest i).
Lemma ends_solid_app a b : b <> [] -> ends_solid (a ++ b) -> ends_solid b.
Proof. intros N H c t ->. apply (H c (a ++ t)). now rewrite app_assoc. Qed.
Lemma holds_iss l w ws : table_row l (w :: ws) -> holds (iss l) (w :: ws).
Proof. intros [H E]. apply words_split in H. repeat split; auto. Qed.
Lemma next_holds i w ws x : holds i (w :: ws) -> exists i', next i x = (w, i') /\ holds i' ws.
Proof.
  intros (F & Ef & Sp & So). unfold next. rewrite F, Ef. cbn [orb].
  destruct (weave_exists (i_rest i)) as (g0 & gs & E & W). rewrite E in *. rewrite splitSt_weave in Sp by auto.
  destruct gs as [|[w' g] t]; [discriminate|]. cbn [map fst] in Sp. inversion Sp; subst w' ws.
  rewrite extract_weave by auto. eexists. split; [reflexivity|]. unfold holds. cbn [i_fail i_eof i_rest].
  assert (Wg : woven g t) by (destruct W as (_ & _ & _ & W); exact W).
  rewrite splitSt_weave by auto. split; [auto|].
  destruct (list_eq_dec ascii_dec (weave g t) []) as [Z0|Z0].
  - rewrite Z0. destruct t as [|[w2 g2] t].
    + split; [auto|]. split; [auto|]. intros c t0 Ht. destruct t0; discriminate.
    + exfalso. cbn [weave] in Z0. destruct W as (_ & _ & _ & _ & [Hw _] & _). apply app_eq_nil in Z0 as [_ Z0]. apply app_eq_nil in Z0 as [Z0 _]. congruence.
  - destruct (str_eqb_spec (weave g t) []) as [E0|_]; [congruence|]. 
    assert (So' : ends_solid (weave g t)). { cbn [weave] in So. apply (ends_solid_app (g0 ++ w)); auto. now rewrite <- app_assoc. }
    destruct t as [|[w2 g2] t]; [|auto].
    exfalso. cbn [weave] in *. destruct Wg as [Wg _]. destruct (exists_last Z0) as (u & c & ->). apply (So' c u eq_refl). apply Wg. apply in_or_app; right; left; auto.
Qed.

(** ** files *)
Definition done (f : fstate) : Prop := s_good (fid f) = false.
Lemma text_cons l ls : text (l :: ls) = l ++ nl :: text ls.
Proof. unfold text. cbn [map concat]. rewrite <- app_assoc. reflexivity. Qed.
Lemma text_app a b : text (a ++ b) = text a ++ text b.
Proof. unfold text. rewrite map_app, concat_app. reflexivity. Qed.
Lemma take_line l r : is_line l -> take_while (fun c => negb (Ascii.eqb c nl)) (l ++ r) = l ++ take_while (fun c => negb (Ascii.eqb c nl)) r.
Proof.
  intros H. apply take_while_app_all. intros c I. apply negb_true_iff. destruct (Ascii.eqb_spec c nl) as [->|]; auto. contradiction.
Qed.
Lemma skipn_plus {A} a b (l : list A) : skipn a (skipn b l) = skipn (a + b) l.
Proof. revert l; induction b as [|b IH]; intros l; [now rewrite Nat.add_0_r|]. rewrite Nat.add_succ_r. destruct l; [now rewrite !skipn_nil|]. cbn [skipn]. apply IH. Qed.
Lemma skipn_more {A} (l : list A) p k a b : skipn p l = a ++ b -> length a = k -> skipn (p + k) l = b.
Proof.
  intros H <-. rewrite Nat.add_comm, <- skipn_plus, H. rewrite skipn_app, skipn_all, Nat.sub_diag. reflexivity.
Qed.
Lemma getl_line f l ls tail x : at_ f (l :: ls) tail -> is_line l ->
  exists f', getl f x = (l, f') /\ at_ f' ls tail /\ pos_ f' = pos_ f /\ s_all (fid f') = s_all (fid f).
Proof.
  intros (E & F & L) Hl. unfold getl, s_getline, s_good. rewrite E, F. cbn [negb andb]. unfold left_in in L. rewrite text_cons in L.
  rewrite <- app_assoc in L. cbn [app] in L.
  rewrite L. destruct (l ++ nl :: text ls ++ tail) as [|c0 r0] eqn:Q; [destruct l; discriminate|]. rewrite <- Q.
  rewrite take_line by auto. cbn [take_while]. rewrite Ascii.eqb_refl. cbn [negb]. rewrite app_nil_r.
  assert (Hlt : (length l <? length (l ++ nl :: text ls ++ tail) = true)%nat) by (apply Nat.ltb_lt; rewrite app_length; cbn [length]; lia).
  rewrite Hlt. eexists. split; [reflexivity|]. unfold at_, left_in. cbn [fid s_eof s_fail s_pos s_all pos_]. split; [|auto]. split; [auto|]. split; [auto|].
  rewrite <- Nat.add_assoc. apply (skipn_more _ _ _ (l ++ [nl]) (text ls ++ tail)); [rewrite L, <- Q, <- app_assoc; reflexivity|rewrite app_length; reflexivity].
Qed.
(** the last, incomplete line *)
Lemma getl_tail f tail x : at_ f [] tail -> is_line tail -> exists f', getl f x = (tail, f') /\ done f' /\ pos_ f' = pos_ f /\ s_all (fid f') = s_all (fid f) /\
  (s_fail (fid f') = match tail with [] => true | _ => false end).
Proof.
  intros (E & F & L) Hl. unfold getl, s_getline, s_good. rewrite E, F. cbn [negb andb]. unfold left_in in L. cbn [text map concat app] in L. rewrite L.
  destruct tail as [|c0 r0] eqn:Q.
  - eexists. split; [reflexivity|]. unfold done, s_good. cbn [fid s_eof s_fail s_all pos_ negb andb]. auto.
  - rewrite <- Q in *. assert (T : take_while (fun c => negb (Ascii.eqb c nl)) tail = tail).
    { rewrite <- (app_nil_r tail) at 1. rewrite take_line by auto. cbn [take_while]. apply app_nil_r. }
    rewrite T, Nat.ltb_irrefl.
    eexists. split; [reflexivity|]. unfold done, s_good. cbn [fid s_eof s_fail s_all pos_ negb andb]. subst. auto.
Qed.
Lemma getl_done f x : done f -> exists f', getl f x = (x, f') /\ done f' /\ s_fail (fid f') = true.
Proof.
  unfold done. intros D. unfold getl, s_getline. rewrite D. cbn [negb]. eexists. split; [reflexivity|]. unfold set_fail, s_good in *. cbn [fid s_eof s_fail].
  split; [apply andb_false_r|auto].
Qed.
Lemma tell_at f lines tail : at_ f lines tail -> at_ (tell f) lines tail /\ pos_ (tell f) = Some (s_pos (fid f)) /\ fid (tell f) = fid f.
Proof.
  intros (E & F & L). unfold tell, s_tellg, s_good. rewrite E, F. cbn [negb andb fid pos_]. split; [|auto]. split; [auto|]. auto.
Qed.
Lemma tell_done f : done f -> done (tell f) /\ s_fail (fid (tell f)) = true.
Proof.
  unfold done. intros D. unfold tell, s_tellg. rewrite D. unfold set_fail, s_good. cbn [fid s_eof s_fail]. split; [apply andb_false_r|auto].
Qed.

(** ** section headers *)
Lemma start_some hs l tag : startSection_ hs l = Some tag <->
  exists a ps b, hs = a ++ (tag, ps) :: b /\ (exists p, In p ps /\ occurs p l) /\ forall t qs q, In (t, qs) a -> In q qs -> ~ occurs q l.
Proof.
  induction hs as [|[t ps] r IH]; cbn [startSection_].
  - split; [discriminate|]. intros (a & q & b & H & _). destruct a; discriminate.
  - destruct (existsb (foundSubStrInStr l) ps) eqn:X.
    + apply existsb_exists in X as (p & Ip & Hp). apply found_iff in Hp. split.
      * intros H. inversion H; subst. exists [], ps, r. split; [auto|]. split; [eauto|]. intros ? ? ? [].
      * intros (a & q & b & H & (p' & Ip' & Hp') & Hn). destruct a as [|[t' q'] a]; [cbn in H; inversion H; subst; auto|].
        cbn in H. inversion H; subst. exfalso. eapply (Hn t' q'); eauto. left; auto.
    + assert (Nx : forall p, In p ps -> ~ occurs p l).
      { intros p Ip Hp. apply found_iff in Hp. assert (existsb (foundSubStrInStr l) ps = true) by (apply existsb_exists; eauto). congruence. }
      rewrite IH. split.
      * intros (a & q & b & -> & H1 & H2). exists ((t, ps) :: a), q, b. split; [auto|]. split; [auto|].
        intros t' qs q' [E0|I]; [inversion E0; subst; auto|eauto].
      * intros (a & q & b & H & H1 & H2). destruct a as [|[t' q'] a].
        { cbn in H. inversion H; subst. destruct H1 as (p & Ip & Hp). exfalso. eapply Nx; eauto. }
        cbn in H. inversion H; subst. exists a, q, b. split; [auto|]. split; [auto|]. intros; eapply H2; eauto. right; eauto.
Qed.
Lemma start_none hs l : startSection_ hs l = None <-> forall t ps p, In (t, ps) hs -> In p ps -> ~ occurs p l.
Proof.
  induction hs as [|[t ps] r IH]; cbn [startSection_]; [split; [intros _ ? ? ? []|auto]|].
  destruct (existsb (foundSubStrInStr l) ps) eqn:X.
  - apply existsb_exists in X as (p & Ip & Hp). apply found_iff in Hp. split; [discriminate|]. intros H. exfalso. eapply (H t ps p); eauto. left; auto.
  - rewrite IH. split; intros H.
    + intros t' ps' p [E0|I] Ip Hp; [|eapply H; eauto]. inversion E0; subst.
      apply found_iff in Hp. assert (existsb (foundSubStrInStr l) ps' = true) by (apply existsb_exists; eauto). congruence.
    + intros t' ps' p I Ip. apply (H t' ps' p); auto. right; auto.
Qed.
Definition tag_of (k : kind) : str :=
  match k with KPopulation => $"AOFunction" | KCoordinates => $"Coord" | KAlpha => $"OEAlpha" | KBeta => $"OEBeta" | KOverlap => $"Overlap" end.
Lemma log_headers_eq : log_headers = map (fun k => (tag_of k, marks k)) kinds. Proof. reflexivity. Qed.
Lemma begins_start k l : begins k l -> startSection_ log_headers l = Some (tag_of k).
Proof.
  intros [(p & Ip & Hp) H]. apply start_some. rewrite log_headers_eq.
  exists (map (fun k => (tag_of k, marks k)) (firstn (rank k) kinds)), (marks k), (map (fun k => (tag_of k, marks k)) (skipn (S (rank k)) kinds)).
  split; [destruct k; reflexivity|]. split; [eauto|].
  intros t qs q I Iq Ho. apply in_map_iff in I as (k' & E0 & I). inversion E0; subst.
  apply (H k'); [|exists q; auto]. destruct k; cbn [rank kinds firstn In] in I; repeat (destruct I as [<-|I]; [cbn [rank]; lia|]); destruct I.
Qed.
Lemma no_mark_start l : no_mark l -> startSection_ log_headers l = None.
Proof.
  intros H. apply start_none. rewrite log_headers_eq. intros t ps p I Ip Ho. apply in_map_iff in I as (k & E0 & I). inversion E0; subst. apply (H k). exists p; auto.
Qed.
