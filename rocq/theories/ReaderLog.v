(** * The section readers of LogReader on correctly printed sections *)
From Verif Require Export ReaderFacts ArgsFacts MatrixCtor.
From Verif Require Export StrSpec StrModel.
Open Scope Z_scope.

(** the position has been recorded *)
Definition here (f : fstate) (lines : list str) (tail : str) : Prop := at_ f lines tail /\ pos_ f = Some (s_pos (fid f)).
Definition post (f : fstate) (rest : list str) (tail : str) : Prop := at_ f rest tail \/ (rest = [] /\ done f).
Lemma seek_back f f1 lines tail : here f lines tail -> pos_ f1 = pos_ f -> s_all (fid f1) = s_all (fid f) -> s_fail (fid f1) = false -> here (seek f1) lines tail.
Proof.
  intros [(E & F & L) P] Q A Fl. unfold seek, s_seekg. rewrite Fl, Q, P. unfold here, at_, left_in in *. cbn [fid pos_ s_eof s_fail s_pos s_all].
  rewrite A. auto.
Qed.

Section Log.
Context (N : nums).
Notation num := (num N).
Implicit Types (d : logd N).

(** ** coordinates *)
Lemma coord_loop_ok e rest tail : is_line e -> occurs table_end e -> forall rows pts, Forall2 (coord_row N) rows pts ->
  forall l lines n f X Y Z, l :: lines = rows ++ [e] -> at_ f (lines ++ rest) tail -> (length rows < n)%nat ->
  exists f', coord_loop N n f l X Y Z = Ok (f', [X ++ map (fun p => fst (fst p)) pts; Y ++ map (fun p => snd (fst p)) pts; Z ++ map snd pts]) /\ at_ f' rest tail.
Proof.
  intros Le Oe rows pts H. induction H as [|r p rows pts Hr H IH]; intros l lines n f X Y Z El Hat Hn; (destruct n as [|n]; [cbn [length] in Hn; lia|]); cbn [coord_loop].
  - cbn [app] in El. inversion El; subst. change coord_end with table_end. rewrite (proj2 (found_iff e table_end) Oe). cbn [map]. rewrite !app_nil_r. exists f. auto.
  - cbn [app] in El. inversion El as [[E1 E2]]. subst l. destruct Hr as (Hl & Hne & a & b & c & x & y & z & w & Hw & Hx & Hy & Hz).
    change coord_end with table_end. rewrite (proj2 (found_not r table_end) Hne). apply words_split in Hw. rewrite Hw.
    rewrite (vat_ok _ 3 x), (vat_ok _ 4 y), (vat_ok _ 5 z) by (lia || reflexivity). cbn [bind]. rewrite Hx. cbn [bind]. rewrite Hy. cbn [bind]. rewrite Hz. cbn [bind].
    destruct lines as [|l2 lines]; [destruct rows; discriminate|].
    assert (Il : is_line l2). { inversion H; subst; cbn [app] in E2; inversion E2; subst; auto. destruct H0 as (H0 & _). auto. }
    destruct (getl_line f l2 (lines ++ rest) tail r Hat Il) as (f2 & G & Hat2 & _). rewrite G.
    destruct (IH l2 lines n f2 (X ++ [fst (fst p)]) (Y ++ [snd (fst p)]) (Z ++ [snd p]) E2 Hat2) as (f3 & R & Hat3); [cbn [length] in Hn; lia|].
    exists f3. rewrite R. split; [|auto]. cbn [map]. rewrite <- !app_assoc. reflexivity.
Qed.
Lemma coord_section_ok a b rows e pts rest tail n f d : is_line a -> is_line b -> Forall2 (coord_row N) rows pts -> is_line e -> occurs table_end e ->
  at_ f (a :: b :: rows ++ [e] ++ rest) tail -> (length rows < n)%nat ->
  exists f', CoordSectionReader N n f d = Ok (f', mkLog N (homoLevel N d) (orb_ N d) (S_ N d) (OREnergies N d)
     [map (fun p => fst (fst p)) pts; map (fun p => snd (fst p)) pts; map snd pts]) /\ at_ f' rest tail.
Proof.
  intros La Lb H Le Oe Hat Hn. unfold CoordSectionReader.
  destruct (getl_line _ _ _ _ [] Hat La) as (f1 & -> & Hat1 & _). destruct (getl_line _ _ _ _ a Hat1 Lb) as (f2 & -> & Hat2 & _).
  destruct (rows ++ [e]) as [|l lines] eqn:E0; [destruct rows; discriminate|].
  rewrite app_assoc, E0 in Hat2. cbn [app] in Hat2.
  assert (Ll : is_line l). { inversion H; subst; cbn [app] in E0; inversion E0; subst; auto. destruct H0 as (H0 & _). auto. }
  destruct (getl_line _ _ _ _ b Hat2 Ll) as (f3 & -> & Hat3 & _).
  destruct (coord_loop_ok e rest tail Le Oe rows pts H l lines n f3 [] [] [] (eq_sym E0) Hat3 Hn) as (f4 & -> & Hat4).
  cbn [bind app]. eauto.
Qed.

(** ** energies *)
Lemma find_dash_none e : ~ In "-"%char e -> find $"-" e = None.
Proof.
  intros H. apply StrFacts.find_none. intros (a & b & ->). apply H. apply in_or_app; right; left; auto.
Qed.
Lemma find_dash a b : ~ In "-"%char a -> find $"-" (a ++ $"-" ++ b) = Some (length a).
Proof.
  intros H. apply (find_first_at _ _ a b). split; [auto|]. intros a' b' E0.
  destruct (Nat.le_gt_cases (length a) (length a')) as [L|L]; auto. exfalso. apply H.
  assert (Q : nth_error (a ++ $"-" ++ b) (length a') = Some "-"%char). { rewrite E0, nth_error_app2 by lia. rewrite Nat.sub_diag. reflexivity. }
  rewrite nth_error_app1 in Q by lia. eapply nth_error_In; eauto.
Qed.
Lemma energy_tail e b : energy e -> e = "-"%char :: b -> ~ In "-"%char b.
Proof.
  intros [_ H] -> I. apply in_split in I as (x & y & ->). specialize (H ("-"%char :: x) y). cbn [app list_ascii_of_string] in H. specialize (H eq_refl). discriminate.
Qed.
Lemma energy_plain e : energy e -> (forall b, e <> "-"%char :: b) -> ~ In "-"%char e.
Proof.
  intros [_ H] N0 I. apply in_split in I as (x & y & ->). specialize (H x y eq_refl). subst. eapply N0; reflexivity.
Qed.
Definition negatives (es : list str) : Prop := Forall (fun e => energy e /\ exists b, e = "-"%char :: b) es.
Lemma glue_negatives es : forall fuel acc, negatives es -> (length (concat es) <= fuel)%nat ->
  glue_loop fuel (concat es) (match es with [] => None | _ => Some O end) acc = Ok (acc ++ es).
Proof.
  induction es as [|e t IH]; intros fuel acc H Hf; [destruct fuel; cbn [glue_loop]; rewrite app_nil_r; auto|].
  inversion H as [|? ? [En [b ->]] Ht]; subst. pose proof (energy_tail _ b En eq_refl) as Nb.
  cbn [concat app length] in *. destruct fuel as [|fuel]; [lia|]. cbn [glue_loop]. change (0 =? 0)%nat with true. cbv iota. cbn [skipn].
  destruct t as [|e2 t].
  - cbn [concat app]. rewrite app_nil_r. rewrite find_dash_none by auto. cbn [length]. rewrite skipn_all2 by lia. cbn [find starts_with list_ascii_of_string].
    destruct fuel; cbn [glue_loop]; reflexivity.
  - inversion Ht as [|? ? [En2 [b2 ->]] Ht2]; subst.
    assert (Fd : find $"-" (b ++ concat (("-"%char :: b2) :: t)) = Some (length b)) by (cbn [concat]; apply (find_dash b (b2 ++ concat t)); auto).
    unfold str in *. rewrite Fd. rewrite skipn_app, skipn_all, Nat.sub_diag. cbn [app skipn].
    assert (F1 : firstn (length b + 1) ("-"%char :: b ++ concat (("-"%char :: b2) :: t)) = "-"%char :: b).
    { rewrite Nat.add_comm. cbn [Nat.add firstn]. f_equal. rewrite firstn_app, firstn_all, Nat.sub_diag. cbn [firstn]. apply app_nil_r. }
    rewrite F1. assert (Fd2 : find $"-" (concat (("-"%char :: b2) :: t)) = Some O) by reflexivity. rewrite Fd2.
    rewrite (IH fuel); [rewrite <- app_assoc; reflexivity|auto|rewrite app_length in Hf; lia].
Qed.
Lemma glue_ok tok es acc : glued tok es ->
  match find $"-" tok with None => Ok (acc ++ [tok]) | Some p => glue_loop (S (length tok)) tok (Some p) acc end = Ok (acc ++ es).
Proof.
  intros (-> & Ne & F & Hn). destruct es as [|e t]; [congruence|]. specialize (Hn e t eq_refl). inversion F as [|? ? En Ft]; subst.
  assert (Nt : negatives t). { clear - Hn Ft. induction t; constructor; inversion Hn; inversion Ft; subst; [split; auto|apply IHt; auto]. }
  destruct e as [|c e]; [destruct En as [[En _] _]; congruence|].
  destruct (ascii_dec c "-"%char) as [->|Nc].
  - change (find $"-" (concat (("-"%char :: e) :: t))) with (Some O).
    apply (glue_negatives (("-"%char :: e) :: t) (S (length (concat (("-"%char :: e) :: t)))) acc); [constructor; [split; eauto|auto]|lia].
  - assert (Ne' : ~ In "-"%char (c :: e)) by (apply energy_plain; auto; intros b Hb; inversion Hb; congruence).
    destruct t as [|e2 t].
    + cbn [concat]. rewrite app_nil_r, find_dash_none by auto. reflexivity.
    + inversion Nt as [|? ? [En2 [b2 ->]] Nt2]; subst.
      assert (Fd : find $"-" (concat ((c :: e) :: ("-"%char :: b2) :: t)) = Some (length (c :: e))).
      { change (concat ((c :: e) :: ("-"%char :: b2) :: t)) with ((c :: e) ++ $"-" ++ (b2 ++ concat t)). apply find_dash; auto. }
      unfold str in *. rewrite Fd. cbn [glue_loop]. change (length (c :: e) =? 0)%nat with false. cbv iota.
      change (concat ((c :: e) :: ("-"%char :: b2) :: t)) with ((c :: e) ++ concat (("-"%char :: b2) :: t)).
      rewrite firstn_app, firstn_all, Nat.sub_diag. cbn [firstn]. rewrite app_nil_r. rewrite skipn_app, skipn_all, Nat.sub_diag. cbn [skipn app].
      change (find $"-" (concat (("-"%char :: b2) :: t))) with (Some O).
      rewrite (glue_negatives (("-"%char :: b2) :: t)); [rewrite <- app_assoc; reflexivity|auto|]. cbn [app length]. rewrite app_length. cbn [length]. lia.
Qed.
Lemma glued_nonempty toks groups : Forall2 glued toks groups -> (length toks <= length (concat groups))%nat.
Proof.
  induction 1 as [|t g toks groups (_ & Ne & _) H IH]; cbn [concat length]; [lia|]. rewrite app_length. destruct g; [congruence|]. cbn [length]. lia.
Qed.
Lemma glued_all_single toks groups : Forall2 glued toks groups -> length (concat groups) = length toks -> concat groups = toks.
Proof.
  induction 1 as [|t g toks groups (Ht & Ne & _) H IH]; cbn [concat length]; [auto|]. rewrite app_length. pose proof (glued_nonempty _ _ H) as L.
  destruct g as [|e [|e2 g]]; [congruence| |cbn [length]; lia]. cbn [length app concat] in *. rewrite app_nil_r in Ht. subst. intros E0. f_equal. apply IH. lia.
Qed.
Lemma energies_ok l ws es : words_of l ws -> energy_words ws es -> exists w4, length w4 = 4%nat /\ splitStEnergies l = Ok (w4 ++ es).
Proof.
  intros Hw (w1 & w2 & w3 & w4 & toks & groups & -> & G & -> & L5). exists [w1; w2; w3; w4]. split; [auto|].
  apply words_split in Hw. unfold splitStEnergies. rewrite Hw. cbn [length].
  destruct (Nat.eqb_spec (S (S (S (S (length toks))))) 9) as [E9|N9].
  - pose proof (glued_nonempty _ _ G). rewrite (glued_all_single _ _ G) by lia. reflexivity.
  - cbn [skipn firstn]. generalize [w1; w2; w3; w4]. clear - G. intros acc. revert acc. induction G as [|t g toks groups Hg G IH]; intros acc; cbn [for_each concat]; [now rewrite app_nil_r|].
    rewrite (glue_ok t g acc Hg). cbn [bind]. rewrite IH. now rewrite app_assoc.
Qed.

Lemma skipn_w4 {A} (w4 es : list A) : length w4 = 4%nat -> skipn 4 (w4 ++ es) = es.
Proof. intros H. rewrite skipn_app, H. rewrite skipn_all2 by lia. reflexivity. Qed.
Definition occ_count (vals : list (bool * list num)) : Z := Z.of_nat (length (concat (map snd (filter fst vals)))).
Lemma oe_loop_ok beta rest tail : not_energy_line beta (first_of rest tail) -> is_line (first_of rest tail) -> forall ls vals, Forall2 (energy_line N beta) ls vals ->
  forall n f x oe homo, here f (ls ++ rest) tail -> (length ls < n)%nat ->
  exists f', oe_loop N n (spin_name beta) f x oe homo = Ok (f', oe ++ concat (map snd vals), homo + occ_count vals) /\
    post (seek f') rest tail.
Proof.
  intros [N1 N2] Lr ls vals H. unfold post. induction H as [|l v ls vals Hl H IH]; intros n f x oe homo Hh Hn; (destruct n as [|n]; [cbn [length] in Hn; lia|]); cbn [oe_loop].
  - cbn [app] in Hh. unfold occ_count. cbn [map filter concat length]. rewrite app_nil_r, Z.add_0_r.
    destruct rest as [|r rest].
    + cbn [first_of] in *. destruct (getl_tail f tail x (proj1 Hh) Lr) as (f1 & -> & D & P & A & Fl).
      destruct tail as [|c tl].
      * rewrite Fl. exists f1. split; [auto|]. right. split; [auto|]. unfold done, seek, s_seekg. rewrite Fl. reflexivity.
      * rewrite Fl. fold (occ_mark beta) (virt_mark beta). rewrite (proj2 (found_not _ _) N1), (proj2 (found_not _ _) N2). cbn [orb].
        exists f1. split; [auto|]. left. eapply seek_back; eauto.
    + cbn [first_of] in *. destruct (getl_line f r rest tail x (proj1 Hh) Lr) as (f1 & -> & Hat & P & A).
      destruct Hat as (E1 & F1 & _). rewrite F1. fold (occ_mark beta) (virt_mark beta). rewrite (proj2 (found_not _ _) N1), (proj2 (found_not _ _) N2). cbn [orb].
      exists f1. split; [auto|]. left. eapply seek_back; eauto.
  - cbn [app] in Hh. destruct Hl as (Ll & Ho & ws & es & Hw & He & Hv).
    destruct (getl_line f l (ls ++ rest) tail x (proj1 Hh) Ll) as (f1 & -> & Hat & P & A). pose proof Hat as (E1 & F1 & _). rewrite F1.
    destruct (energies_ok l ws es Hw He) as (w4 & L4 & Sp). rewrite Sp. cbn [bind]. rewrite skipn_w4 by auto. rewrite <- Hv.
    fold (occ_mark beta) (virt_mark beta).
    destruct (tell_at f1 _ _ Hat) as (Hat2 & P2 & F2).
    assert (Hh2 : here (tell f1) (ls ++ rest) tail) by (split; [auto|rewrite F2; auto]).
    assert (Hb : foundSubStrInStr l (occ_mark beta) = fst v /\ foundSubStrInStr l (occ_mark beta) || foundSubStrInStr l (virt_mark beta) = true).
    { destruct (fst v).
      - rewrite (proj2 (found_iff _ _) Ho). auto.
      - destruct Ho as [H1 H2]. rewrite (proj2 (found_not _ _) H2), (proj2 (found_iff _ _) H1). auto. }
    destruct Hb as [Hb1 Hb2]. rewrite Hb2, Hb1.
    destruct (IH n (tell f1) l (oe ++ snd v) (if fst v then homo + Z.of_nat (length (snd v)) else homo) Hh2) as (f3 & R & Hp); [cbn [length] in Hn; lia|].
    exists f3. split; [|auto]. rewrite R. cbn [map concat]. rewrite <- app_assoc. do 2 f_equal. unfold occ_count. cbn [filter]. destruct (fst v); cbn [map concat]; [rewrite app_length|]; lia.
Qed.
Lemma oe_section_ok beta ls vals rest tail n f f1 d : not_energy_line beta (first_of rest tail) -> is_line (first_of rest tail) -> Forall2 (energy_line N beta) ls vals ->
  here f (ls ++ rest) tail -> pos_ f1 = pos_ f -> s_all (fid f1) = s_all (fid f) -> s_fail (fid f1) = false -> (length ls < n)%nat ->
  exists f', ReadOrbEnergies N n (spin_name beta) f1 d = Ok (f', mkLog N (m_set (spin_name beta) (occ_count vals) (homoLevel N d)) (orb_ N d) (S_ N d)
      (m_set (spin_name beta) (concat (map snd vals)) (OREnergies N d)) (xyz N d)) /\ post f' rest tail.
Proof.
  intros Hn Hl H Hh P A F Hlen. unfold ReadOrbEnergies. pose proof (seek_back _ _ _ _ Hh P A F) as Hs.
  destruct (oe_loop_ok beta rest tail Hn Hl ls vals H n (seek f1) [] [] 0 Hs Hlen) as (f2 & R & Hp). rewrite R. cbn [bind app]. rewrite Z.add_0_l. eauto.
Qed.
End Log.
