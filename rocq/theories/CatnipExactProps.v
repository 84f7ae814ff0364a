(** * C58, C60: the files used, for every line the parser accepts *)
From Verif Require Import CatnipProps.
From Verif Require Export CatnipExact.
Open Scope Z_scope.

Lemma solid_exts (own : str) : Forall (fun e => ~ white e) (if existsb (str_eqb own) pun_flags then pun_exts else log_exts).
Proof. destruct exts_solid. destruct (existsb _ _); auto. Qed.
Lemma file_exts p own partner exts ext n : In (own, partner, exts, ext, n) (files p) ->
  exts = (if existsb (str_eqb own) pun_flags then pun_exts else log_exts) /\ In (own, partner) file_pairs /\ Forall (fun e => ~ white e) exts.
Proof.
  destruct exts_solid as (X1 & X2). intros I. unfold files in I. cbn [In] in I.
  destruct I as [I|[I|[I|[I|[I|[I|[]]]]]]]; inversion I; subst own partner exts ext n; (split; [reflexivity|split; [unfold file_pairs; cbn [In]; tauto|assumption]]).
Qed.
(** ** C58 *)
(** which names are used *)
Theorem C58_exact_partial : forall E prog l P p, valid (catnip E) l -> parse (prog :: words l) (catnip E) = Ok P -> prepareParameters P = Ok p ->
  forall own partner exts ext n, In (own, partner, exts, ext, n) (files p) -> uses E l own partner exts n /\ ends_in n ext.
Proof.
  intros E prog l P p V Hp H own partner exts ext n I. split; [|eapply C58_suffixes; eauto].
  destruct (parsed _ _ _ V Hp) as (R & L & W). destruct (resolve_every l P V R L W) as (m & Hm & Pk).
  destruct (file_exts _ _ _ _ _ _ I) as (-> & Ip & Ws).
  destruct (Pk _ _ Ip) as (sis & E1 & Sn). apply (used_iff (E:=E) l own partner _ sis n Ws Sn). rewrite <- E1.
  apply (prepare_iff _ _ _ Hm) in H. destruct H as ((A1 & _) & (A2 & _) & (A3 & _) & (A4 & _) & (A5 & _) & (A6 & _) & _).
  unfold files in I. cbn [In] in I. destruct I as [I|[I|[I|[I|[I|[I|[]]]]]]]; inversion I; assumption.
Qed.
Print Assumptions C58_exact_partial.
(** it succeeds if there are such names with the right suffixes, and the orbitals are consistent *)
Theorem C58_exact_complete_partial : forall E prog l P, valid (catnip E) l -> parse (prog :: words l) (catnip E) = Ok P ->
  (forall own partner exts ext n0, In (own, partner, exts, ext, n0) (files Parameters) -> exists n, uses E l own partner exts n /\ ends_in n ext /\ storable n) ->
  (forall ty n, value_or $"--orbital_type_1" $"HOMO" l ty -> number_or $"--orbital_num_1" 0 l n -> consistent ty n) ->
  (forall ty n, value_or $"--orbital_type_2" $"HOMO" l ty -> number_or $"--orbital_num_2" 0 l n -> consistent ty n) ->
  exists p, prepareParameters P = Ok p.
Proof.
  intros E prog l P V Hp Rs Co1 Co2. destruct (parsed _ _ _ V Hp) as (R & L & W). destruct (resolve_every l P V R L W) as (m & Hm & Pk).
  destruct (settings_read l P V R) as (sP & s1 & s2 & t1 & t2 & n1 & n2 & (G1 & V1 & I1) & (G2 & V2 & I2) & (G3 & V3 & I3) & (G4 & V4 & I4) & (G5 & V5 & I5) & (G6 & V6) & (G7 & V7) & G8 & G9).
  assert (G : forall own partner exts ext n0, In (own, partner, exts, ext, n0) (files Parameters) -> len ext = 4 -> exists n, pick m own = Ok n /\ check_ext ext n = Ok tt).
  { intros own partner exts ext n0 I Le. destruct (Rs _ _ _ _ _ I) as (n & Rn & En & Sn). exists n.
    destruct (file_exts _ _ _ _ _ _ I) as (-> & Ip & Ws). destruct (Pk _ _ Ip) as (sis & E1 & Sis). split.
    - rewrite E1. eapply used_iff; eauto.
    - apply (check_ext_ok ext n Le Sn); auto. }
  destruct (G $"--pun_P" $"--log_P" pun_exts $".pun" []) as (a1 & A1); [left; reflexivity|reflexivity|].
  destruct (G $"--pun_1" $"--log_1" pun_exts $".pun" []) as (a2 & A2); [right; left; reflexivity|reflexivity|].
  destruct (G $"--pun_2" $"--log_2" pun_exts $".pun" []) as (a3 & A3); [do 2 right; left; reflexivity|reflexivity|].
  destruct (G $"--log_P" $"--pun_P" log_exts $".log" []) as (a4 & A4); [do 3 right; left; reflexivity|reflexivity|].
  destruct (G $"--log_1" $"--pun_1" log_exts $".log" []) as (a5 & A5); [do 4 right; left; reflexivity|reflexivity|].
  destruct (G $"--log_2" $"--pun_2" log_exts $".log" []) as (a6 & A6); [do 5 right; left; reflexivity|reflexivity|].
  exists (mkParams a5 a6 a4 a2 a3 a1 sP s1 s2 [] t1 t2 0 n1 n2 
    (Some (negb ((if in_dec str_dec $"--citation" (switched l) then 1 else 0) =? 0))) (negb ((if in_dec str_dec $"--counter_poise" (switched l) then 1 else 0) =? 0))).
  apply (prepare_iff _ _ _ Hm). cbn [punP pun1 pun2 logP log1 log2 spinP spin1 spin2 counterPoise citation orb_type1 orb_num1 orb_type2 orb_num2 orb_typeP orb_numP].
  split; [exact A1|]. split; [exact A2|]. split; [exact A3|]. split; [exact A4|]. split; [exact A5|]. split; [exact A6|].
  split; [exact G1|]. split; [exact G2|]. split; [exact G3|]. split; [eexists; split; [exact G8|reflexivity]|]. split; [eexists; split; [exact G9|reflexivity]|].
  split; [apply (orbital_iff _ _ _ _ _ _ _ G4 I4 G6); auto|]. split; [apply (orbital_iff _ _ _ _ _ _ _ G5 I5 G7); auto|]. auto.
Qed.
Print Assumptions C58_exact_complete_partial.
(** otherwise it throws: it neither has undefined behaviour nor ends the program *)
Definition civil {A} (o : outcome A) : Prop := (exists a, o = Ok a) \/ exists e, o = Throw e.
Lemma civil_bind {A B} (o : outcome A) (k : A -> outcome B) : civil o -> (forall a, o = Ok a -> civil (k a)) -> civil (bind o k).
Proof. intros [(a & ->)|(e & ->)] K; cbn [bind]; [apply K; auto|right; eauto]. Qed.
Lemma civil_check ext s : civil (check_ext ext s).
Proof.
  unfold check_ext, lastN, substr1. destruct (len s <? _); [right; eexists; reflexivity|]. cbn [bind].
  destruct (str_eqb _ _); [left|right]; eexists; reflexivity.
Qed.
Lemma civil_pick m f : civil (pick m f).
Proof. unfold pick. destruct (m_find f (fst m)); [left; eauto|]. destruct (m_find f (snd m)); [left|right]; eauto. Qed.
Lemma civil_orbital E (P : parser E) tf nf : (exists t, getStr P tf = Ok t) -> (exists n, getInt P nf = Ok n) -> civil (orbital P tf nf).
Proof.
  intros (t & Ht) (n & Hn). unfold orbital. rewrite Ht. cbn [bind]. destruct (str_eqb t _); rewrite ?Hn; cbn [bind].
  - destruct (_ <? _); [right|left]; eauto.
  - destruct (str_eqb t _); rewrite ?Hn; cbn [bind]; [|left; eauto]. destruct (_ <? _); [right|left]; eauto.
Qed.
Theorem C58_defined : forall E prog l P, valid (catnip E) l -> parse (prog :: words l) (catnip E) = Ok P ->
  (exists p, prepareParameters P = Ok p) \/ exists e, prepareParameters P = Throw e.
Proof.
  intros E prog l P V Hp. destruct (parsed _ _ _ V Hp) as (R & L & W). destruct (resolve_every l P V R L W) as (m & Hm & _).
  destruct (settings_read l P V R) as (sP & s1 & s2 & t1 & t2 & n1 & n2 & (G1 & _) & (G2 & _) & (G3 & _) & (G4 & _) & (G5 & _) & (G6 & _) & (G7 & _) & G8 & G9).
  unfold prepareParameters. match goal with |- context [for_each ?l (resolve_flag P) ?q] => change (for_each l (resolve_flag P) q) with (for_each file_pairs (resolve_flag P) q) end.
  rewrite Hm. cbn [bind]. rewrite G1, G2, G3, G8, G9. cbn [bind].
  assert (O1 : civil (orbital P $"--orbital_type_1" $"--orbital_num_1")) by (apply civil_orbital; eauto).
  assert (O2 : civil (orbital P $"--orbital_type_2" $"--orbital_num_2")) by (apply civil_orbital; eauto).
  change (civil (f <- pick m $"--pun_P" ;; p <- setPunP f Parameters ;;
  f <- pick m $"--pun_1" ;; p <- setPun1 f p ;;
  f <- pick m $"--pun_2" ;; p <- setPun2 f p ;;
  f <- pick m $"--log_P" ;; p <- setLogP f p ;;
  f <- pick m $"--log_1" ;; p <- setLog1 f p ;;
  f <- pick m $"--log_2" ;; p <- setLog2 f p ;;
  o1 <- orbital P $"--orbital_type_1" $"--orbital_num_1" ;;
  o2 <- orbital P $"--orbital_type_2" $"--orbital_num_2" ;;
  Ok (set_rest sP s1 s2 (negb ((if in_dec str_dec $"--counter_poise" (switched l) then 1 else 0) =? 0))
     (negb ((if in_dec str_dec $"--citation" (switched l) then 1 else 0) =? 0)) (fst o1) (snd o1) (fst o2) (snd o2) p))).
  do 6 (apply civil_bind; [apply civil_pick|]; intros ? _; apply civil_bind;
        [unfold setPunP, setPun1, setPun2, setLogP, setLog1, setLog2; apply civil_bind; [apply civil_check|]; intros ? _; left; eauto|]; intros ? _).
  apply civil_bind; [exact O1|]; intros ? _. apply civil_bind; [exact O2|]; intros ? _. left. eauto.
Qed.
Print Assumptions C58_defined.
(** at most one name is used, and there is none only if no file given with the flag exists and its partner is not given or has no sister *)
Theorem C58_uses_unique : forall E l own partner exts n n', Forall (fun e => ~ white e) exts -> uses E l own partner exts n -> uses E l own partner exts n' -> n = n'.
Proof.
  intros E l own partner exts n n' Ws [[L (w & I & F)]|[N (w & Lw & B)]] [[L' (w' & I' & F')]|[N' (w' & Lw' & B')]].
  - eapply last_unique; eauto.
  - rewrite (N' w I) in F. discriminate.
  - rewrite (N w' I') in F'. discriminate.
  - rewrite (last_unique _ _ _ _ Lw' Lw) in B'. destruct (path_is_exists w) as (dir & core & ext & Hp).
    apply (named_iff _ _ _ _ _ _ Hp Ws) in B. apply (named_iff _ _ _ _ _ _ Hp Ws) in B'. congruence.
Qed.
Print Assumptions C58_uses_unique.
(** on lines without repetitions and white space this is what [resolves] says *)
Lemma nth_two {A} (a b : list A) e : nth_error (a ++ e :: b) (length a) = Some e.
Proof. rewrite nth_error_app2, Nat.sub_diag by lia. reflexivity. Qed.
Theorem C60_no_blanks_partial : forall E w exts n, no_white w -> Forall no_white exts -> Forall (fun e => e <> []) exts ->
  (named E w exts n <-> best_sister E w exts n).
Proof.
  intros E w exts n Nw We We2. destruct (path_is_exists w) as (dir & core & ext & Hp).
  assert (Ws : Forall (fun e => ~ white e) exts).
  { rewrite Forall_forall in *. intros [|c e] I C; [exact (We2 _ I eq_refl)|]. apply (We _ I c); [left; auto|apply C; left; auto]. }
  rewrite (best_sister_iff _ _ _ _ _ _ Hp), (named_iff _ _ _ _ _ _ Hp Ws).
  assert (Wd : no_white dir /\ no_white core).
  { destruct Hp as (z & -> & _ & _ & -> & _). split; intros c I; apply Nw; rewrite !in_app_iff; auto. }
  set (paths := map (fun e => dir ++ core ++ e) exts).
  assert (Wp : Forall word paths).
  { apply Forall_map, Forall_forall. intros e I. rewrite Forall_forall in We, We2. split.
    - intros C. apply app_eq_nil in C as [_ C]. apply app_eq_nil in C as [_ C]. eapply We2; eauto.
    - intros c Hc. rewrite !in_app_iff in Hc. destruct Wd as [W1 W2]. destruct Hc as [Hc|[Hc|Hc]]; [apply W1|apply W2|apply (We e)]; auto. }
  clearbody paths. assert (Q : concat (map splitSt paths) = paths).
  { clear - Wp. induction Wp as [|q t Wq F IH]; cbn [map concat]; [reflexivity|]. rewrite IH.
    pose proof (splitSt_weave [] [(q, [])]) as S1. cbn [weave map fst app] in S1. rewrite app_nil_r in S1. rewrite S1; [reflexivity|].
    cbn [woven]. split; [apply white_nil|]. split; [auto|]. split; [intros C; destruct (C eq_refl)|]. split; [apply white_nil|auto]. }
  rewrite Q. assert (S1 : forall l, last_named (E:=E) (combine l l) = last_existing (E:=E) l).
  { clear. induction l as [|q t IH]; cbn [combine last_named last_existing]; [reflexivity|]. rewrite IH. reflexivity. }
  rewrite S1. reflexivity.
Qed.
Print Assumptions C60_no_blanks_partial.
(** the log file: the name used is the first word of the path of the sister *)
Theorem C60_first_word_refuted : forall E prog l P p, valid (catnip E) l -> parse (prog :: words l) (catnip E) = Ok P -> prepareParameters P = Ok p ->
  forall own partner n, In (own, partner, log_exts, $".log", n) (files p) -> (forall w, ~ In (own, w) (given l)) ->
  exists w q more, last_value partner l w /\ sister_of w $".log" q /\ file_exists E q = true /\ words_are q (n :: more) /\ (n = q <-> no_white q).
Proof.
  intros E prog l P p V Hp H own partner n I Nn. destruct (C58_exact_partial _ _ _ _ _ V Hp H _ _ _ _ _ I) as [[[L _]|[_ (w & Lw & Nd)]] _].
  - exfalso. eapply Nn, last_in; eauto.
  - destruct Nd as (qs & wss & i & q & A & B & C & D & F & G).
    unfold log_exts in A. inversion A as [|? q1 ? qs1 S1 A1]; subst. inversion A1; subst. inversion B as [|? ws1 ? wss1 W1 B1]; subst. inversion B1; subst.
    destruct i as [|[|i]]; try discriminate. cbn [nth_error] in C. assert (q1 = q) by congruence. subst q1. cbn [concat] in G. rewrite app_nil_r in G.
    destruct ws1 as [|n1 more]; [discriminate|]. cbn [nth_error] in G. assert (n1 = n) by congruence. subst n1.
    exists w, q, more. split; [auto|]. split; [auto|]. split; [auto|]. split; [auto|]. apply words_split in W1. split.
    + intros ->. pose proof (splitSt_words q) as Fw. rewrite <- W1 in Fw. inversion Fw as [|? ? Hw _]; subst. apply Hw.
    + intros Nq. assert (Q : splitSt q = [q]).
      { pose proof (splitSt_weave [] [(q, [])]) as S2. cbn [weave map fst app] in S2. rewrite app_nil_r in S2. apply S2.
        cbn [woven]. split; [apply white_nil|]. split; [split; [intros ->; discriminate|auto]|]. split; [intros X; destruct (X eq_refl)|]. split; [apply white_nil|auto]. }
      rewrite Q in W1. congruence.
Qed.
Print Assumptions C60_first_word_refuted.

(** ** cases *)
(** line3 of CatnipProps gives --pun_P twice and the second file does not exist; line5 has a blank in a path *)
Example C58_exact_example : exists P p P2 p2, valid (catnip disk1) line3 /\ parse ($"calc_J" :: words line3) (catnip disk1) = Ok P /\ prepareParameters P = Ok p /\
  uses disk1 line3 $"--pun_P" $"--log_P" pun_exts $"gone.pun" /\ file_exists disk1 $"gone.pun" = false /\
  valid (catnip disk2) line5 /\ parse ($"calc_J" :: words line5) (catnip disk2) = Ok P2 /\ prepareParameters P2 = Ok p2 /\
  uses disk2 line5 $"--log_P" $"--pun_P" log_exts $"x.log".
Proof.
  destruct C58_repeated_example as (P & p & H1 & H2 & V & _ & F & L & I & X). destruct C60_witness_refuted as (P2 & p2 & V2 & H3 & H4 & _ & N2 & _).
  exists P, p, P2, p2. split; [auto|]. split; [auto|]. split; [auto|]. split; [left; eauto|]. split; [auto|]. split; [auto|]. split; [auto|]. split; [auto|].
  cbn [names nth_error] in N2. apply (C58_exact_partial _ _ _ _ _ V2 H3 H4 _ _ _ $".log").
  assert (Q : logP p2 = $"x.log") by congruence. rewrite <- Q. unfold files. do 3 right. left. reflexivity.
Qed.
(** three sisters tried, one existing: [a b.log] has the sisters [a b.orb], [a b.7] and [a b.pun]; only the second exists, the second word is [b.orb] *)
Example C60_words_example : named (disk [$"a b.7"]) $"a b.log" pun_exts $"b.orb".
Proof.
  assert (Hp : path_is $"a b.log" [] $"a b" $".log").
  { exists $"a b.log". split; [reflexivity|]. split; [left; reflexivity|]. split; [intros C; vm_compute in C; intuition discriminate|].
    split; [reflexivity|]. right. exists $"log". split; [reflexivity|intros C; vm_compute in C; intuition discriminate]. }
  apply (named_iff _ _ _ _ _ _ Hp (proj2 exts_solid)). vm_compute. reflexivity.
Qed.
