(** * prepareParameters *)
From Verif Require Export CatnipFiles.
Open Scope Z_scope.

(** ** file name suffixes *)
Lemma check_ext_ends ext s : check_ext ext s = Ok tt -> ends_in s ext.
Proof.
  unfold check_ext, lastN, substr1. destruct (len s <? _); [discriminate|]. cbn [bind].
  set (k := Z.to_nat _). destruct (str_eqb_spec (skipn k s) ext) as [H|]; [|discriminate]. intros _. exists (firstn k s). rewrite <- H. symmetry. apply firstn_skipn.
Qed.
Lemma check_ext_ok ext s : len ext = 4 -> storable s ->
  (ends_in s ext -> check_ext ext s = Ok tt) /\
  (~ ends_in s ext -> check_ext ext s = Throw (if len s <? 4 then OutOfRange else InvalidArgument)).
Proof.
  intros Le St. split.
  - intros (t & ->). unfold check_ext. destruct (suffix_ok t ext 4 St Le) as [_ ->]. cbn [bind]. rewrite str_eqb_refl. auto.
  - intros N. destruct (Z.ltb_spec (len s) 4) as [L|L].
    + unfold check_ext. destruct (too_long s 4) as (-> & _); auto. vm_compute; split; discriminate.
    + destruct (check_ext ext s) as [[]|e| | |] eqn:C; [exfalso; apply N, check_ext_ends; auto| | | |];
      unfold check_ext in C; destruct (split_at s (len s - 4)) as (a & b & -> & La & Lb); try lia;
      (destruct (suffix_ok a b 4 St) as [_ R]; [lia|]); rewrite R in C; cbn [bind] in C; destruct (str_eqb b ext); try discriminate. congruence.
Qed.

Section Params.
Context {E : env}.
Implicit Types (P : parser E).
Definition file_pairs : list (str * str) :=
  [($"--pun_P", $"--log_P"); ($"--pun_1", $"--log_1"); ($"--pun_2", $"--log_2");
   ($"--log_P", $"--pun_P"); ($"--log_1", $"--pun_1"); ($"--log_2", $"--pun_2")].
Definition picked (o s : option str) : outcome str :=
  match orelse o s with Some n => Ok n | None => Throw RuntimeError end.
(** the six names, from the own names [o] and the sister names [s] (both by flag) *)
Lemma pick_six (oP o1 o2 qP q1 q2 sP s1 s2 tP t1 t2 : option str) (m : smap str * smap str) :
  fst m = upd q2 $"--log_2" (upd q1 $"--log_1" (upd qP $"--log_P" (upd o2 $"--pun_2" (upd o1 $"--pun_1" (upd oP $"--pun_P" []))))) ->
  snd m = upd t2 $"--pun_2" (upd t1 $"--pun_1" (upd tP $"--pun_P" (upd s2 $"--log_2" (upd s1 $"--log_1" (upd sP $"--log_P" []))))) ->
  pick m $"--pun_P" = picked oP tP /\ pick m $"--pun_1" = picked o1 t1 /\ pick m $"--pun_2" = picked o2 t2 /\
  pick m $"--log_P" = picked qP sP /\ pick m $"--log_1" = picked q1 s1 /\ pick m $"--log_2" = picked q2 s2.
Proof.
  intros H1 H2.
  assert (G : forall f o s, m_find f (fst m) = o -> m_find f (snd m) = s -> pick m f = picked o s).
  { intros f o s <- <-. unfold pick, picked. destruct (m_find f (fst m)), (m_find f (snd m)); reflexivity. }
  assert (T : forall o : option str, orelse o None = o) by (intros []; auto).
  repeat split; apply G; rewrite ?H1, ?H2, !find_upd; cbn [m_find];
    repeat match goal with |- context [str_eqb ?a ?b] => let v := eval vm_compute in (str_eqb a b) in change (str_eqb a b) with v; cbv iota end; apply T.
Qed.

(** everything prepareParameters needs *)
Lemma prepare_iff P m p : for_each file_pairs (resolve_flag P) ([], []) = Ok m ->
  (prepareParameters P = Ok p <->
   (pick m $"--pun_P" = Ok (punP p) /\ check_ext $".pun" (punP p) = Ok tt) /\
   (pick m $"--pun_1" = Ok (pun1 p) /\ check_ext $".pun" (pun1 p) = Ok tt) /\
   (pick m $"--pun_2" = Ok (pun2 p) /\ check_ext $".pun" (pun2 p) = Ok tt) /\
   (pick m $"--log_P" = Ok (logP p) /\ check_ext $".log" (logP p) = Ok tt) /\
   (pick m $"--log_1" = Ok (log1 p) /\ check_ext $".log" (log1 p) = Ok tt) /\
   (pick m $"--log_2" = Ok (log2 p) /\ check_ext $".log" (log2 p) = Ok tt) /\
   getStr P $"--spin_P" = Ok (spinP p) /\ getStr P $"--spin_1" = Ok (spin1 p) /\ getStr P $"--spin_2" = Ok (spin2 p) /\
   (exists v, getInt P $"--counter_poise" = Ok v /\ counterPoise p = negb (v =? 0)) /\
   (exists v, getInt P $"--citation" = Ok v /\ citation p = Some (negb (v =? 0))) /\
   orbital P $"--orbital_type_1" $"--orbital_num_1" = Ok (orb_type1 p, orb_num1 p) /\
   orbital P $"--orbital_type_2" $"--orbital_num_2" = Ok (orb_type2 p, orb_num2 p) /\
   orb_typeP p = [] /\ orb_numP p = 0).
Proof.
  intros Hm. unfold prepareParameters. match goal with |- context [for_each ?l (resolve_flag P) ?q] => change (for_each l (resolve_flag P) q) with (for_each file_pairs (resolve_flag P) q) end.
  rewrite Hm. cbn [bind]. split.
  - intros H.
    do 6 (apply bind_ok in H as (? & ?A & H); apply bind_ok in H as (q & Hq & H);
          unfold setPunP, setPun1, setPun2, setLogP, setLog1, setLog2 in Hq; apply bind_ok in Hq as ([] & ?C & Hq);
          cbn [punP pun1 pun2 logP log1 log2 spinP spin1 spin2 counterPoise citation orb_type1 orb_num1 orb_type2 orb_num2 orb_typeP orb_numP Parameters] in Hq;
          injection Hq as <-).
    do 7 (apply bind_ok in H as (? & ?B & H)). unfold set_rest in H.
    cbn [punP pun1 pun2 logP log1 log2 spinP spin1 spin2 counterPoise citation orb_type1 orb_num1 orb_type2 orb_num2 orb_typeP orb_numP] in H. injection H as <-.
    cbn [punP pun1 pun2 logP log1 log2 spinP spin1 spin2 counterPoise citation orb_type1 orb_num1 orb_type2 orb_num2 set_rest orb_typeP orb_numP Parameters].
    repeat match goal with x : (str * Z)%type |- _ => destruct x end. cbn [fst snd].
    split; [auto|]. split; [auto|]. split; [auto|]. split; [auto|]. split; [auto|]. split; [auto|]. split; [auto|]. split; [auto|]. split; [auto|].
    split; [eauto|]. split; [eauto|]. auto.
  - intros ((A1 & B1) & (A2 & B2) & (A3 & B3) & (A4 & B4) & (A5 & B5) & (A6 & B6) & S1 & S2 & S3 & (v & C1 & C2) & (u & D1 & D2) & O1 & O2 & Y & Z0).
    rewrite A1. cbn [bind]. unfold setPunP. rewrite B1. cbn [bind punP pun1 pun2 logP log1 log2 spinP spin1 spin2 counterPoise citation orb_type1 orb_num1 orb_type2 orb_num2 orb_typeP orb_numP Parameters].
    rewrite A2. cbn [bind]. unfold setPun1. rewrite B2. cbn [bind punP pun1 pun2 logP log1 log2 spinP spin1 spin2 counterPoise citation orb_type1 orb_num1 orb_type2 orb_num2 orb_typeP orb_numP].
    rewrite A3. cbn [bind]. unfold setPun2. rewrite B3. cbn [bind punP pun1 pun2 logP log1 log2 spinP spin1 spin2 counterPoise citation orb_type1 orb_num1 orb_type2 orb_num2 orb_typeP orb_numP].
    rewrite A4. cbn [bind]. unfold setLogP. rewrite B4. cbn [bind punP pun1 pun2 logP log1 log2 spinP spin1 spin2 counterPoise citation orb_type1 orb_num1 orb_type2 orb_num2 orb_typeP orb_numP].
    rewrite A5. cbn [bind]. unfold setLog1. rewrite B5. cbn [bind punP pun1 pun2 logP log1 log2 spinP spin1 spin2 counterPoise citation orb_type1 orb_num1 orb_type2 orb_num2 orb_typeP orb_numP].
    rewrite A6. cbn [bind]. unfold setLog2. rewrite B6. cbn [bind punP pun1 pun2 logP log1 log2 spinP spin1 spin2 counterPoise citation orb_type1 orb_num1 orb_type2 orb_num2 orb_typeP orb_numP].
    rewrite S1, S2, S3. cbn [bind]. rewrite C1. cbn [bind]. rewrite D1. cbn [bind]. rewrite O1. cbn [bind]. rewrite O2. cbn [bind fst snd].
    unfold set_rest. cbn [punP pun1 pun2 logP log1 log2 orb_typeP orb_numP]. rewrite <- C2, <- D2, <- Y, <- Z0. destruct p; reflexivity.
Qed.
(** an orbital that is refused, everything before it being accepted *)
Lemma step_ok {X Y} (o : outcome X) (f : X -> outcome Y) x r : o = Ok x -> f x = r -> bind o f = r.
Proof. intros -> H. exact H. Qed.
Lemma setter_step {Y} ext n (q : params) (f : params -> outcome Y) r : check_ext ext n = Ok tt -> f q = r -> bind (_ <- check_ext ext n ;; Ok q) f = r.
Proof. intros -> H. exact H. Qed.
Lemma prepare_throws P m (f1 f2 f3 f4 f5 f6 sP s1 s2 : str) (v u : Z) e : for_each file_pairs (resolve_flag P) ([], []) = Ok m ->
  (pick m $"--pun_P" = Ok f1 /\ check_ext $".pun" f1 = Ok tt) ->
  (pick m $"--pun_1" = Ok f2 /\ check_ext $".pun" f2 = Ok tt) ->
  (pick m $"--pun_2" = Ok f3 /\ check_ext $".pun" f3 = Ok tt) ->
  (pick m $"--log_P" = Ok f4 /\ check_ext $".log" f4 = Ok tt) ->
  (pick m $"--log_1" = Ok f5 /\ check_ext $".log" f5 = Ok tt) ->
  (pick m $"--log_2" = Ok f6 /\ check_ext $".log" f6 = Ok tt) ->
  getStr P $"--spin_P" = Ok sP -> getStr P $"--spin_1" = Ok s1 -> getStr P $"--spin_2" = Ok s2 ->
  getInt P $"--counter_poise" = Ok v -> getInt P $"--citation" = Ok u ->
  orbital P $"--orbital_type_1" $"--orbital_num_1" = Throw e \/
  (exists o, orbital P $"--orbital_type_1" $"--orbital_num_1" = Ok o) /\ orbital P $"--orbital_type_2" $"--orbital_num_2" = Throw e ->
  prepareParameters P = Throw e.
Proof.
  intros Hm (A1 & B1) (A2 & B2) (A3 & B3) (A4 & B4) (A5 & B5) (A6 & B6) S1 S2 S3 C D O. unfold prepareParameters.
  eapply step_ok; [exact Hm|]. cbv beta.
  eapply step_ok; [exact A1|]. cbv beta. eapply setter_step; [exact B1|]. cbv beta. match goal with |- context [setPun1 _ ?q] => generalize q; intros q1 end.
  eapply step_ok; [exact A2|]. cbv beta. eapply setter_step; [exact B2|]. cbv beta. match goal with |- context [setPun2 _ ?q] => generalize q; intros q2 end.
  eapply step_ok; [exact A3|]. cbv beta. eapply setter_step; [exact B3|]. cbv beta. match goal with |- context [setLogP _ ?q] => generalize q; intros q3 end.
  eapply step_ok; [exact A4|]. cbv beta. eapply setter_step; [exact B4|]. cbv beta. match goal with |- context [setLog1 _ ?q] => generalize q; intros q4 end.
  eapply step_ok; [exact A5|]. cbv beta. eapply setter_step; [exact B5|]. cbv beta. match goal with |- context [setLog2 _ ?q] => generalize q; intros q5 end.
  eapply step_ok; [exact A6|]. cbv beta. eapply setter_step; [exact B6|]. cbv beta.
  eapply step_ok; [exact S1|]. cbv beta. eapply step_ok; [exact S2|]. cbv beta. eapply step_ok; [exact S3|]. cbv beta.
  eapply step_ok; [exact C|]. cbv beta. eapply step_ok; [exact D|]. cbv beta.
  destruct O as [O|[[o O] O2]].
  - rewrite O. reflexivity.
  - eapply step_ok; [exact O|]. cbv beta. rewrite O2. reflexivity.
Qed.
Lemma prepare_resolves P p : prepareParameters P = Ok p -> exists m, for_each file_pairs (resolve_flag P) ([], []) = Ok m.
Proof.
  unfold prepareParameters. intros H. apply bind_ok in H as (m & H & _). exists m. exact H.
Qed.

(** ** the names, when the given paths contain no white space *)
Definition sis_name (l : list item) (f : str) (exts : list str) (sis : option str) : Prop :=
  (vals f l = [] -> sis = None) /\
  (forall w dir core ext, last_value f l w -> path_is w dir core ext -> sis = last_existing (E:=E) (map (fun e => dir ++ core ++ e) exts)).
Lemma exts_fine : Forall no_white log_exts /\ Forall no_white pun_exts /\ Forall (fun e => e <> []) log_exts /\ Forall (fun e => e <> []) pun_exts.
Proof.
  assert (W : forall s, forallb (fun c => negb (is_space c)) s = true -> no_white s).
  { intros s H2 c I. rewrite forallb_forall in H2. specialize (H2 c I). apply negb_true_iff in H2. now apply is_space_nin. }
  unfold log_exts, pun_exts. split; [repeat (constructor; [apply W; reflexivity|]); constructor|].
  split; [repeat (constructor; [apply W; reflexivity|]); constructor|]. split; repeat (constructor; [discriminate|]); constructor.
Qed.
Lemma says_all l P f : valid (catnip E) l -> run (catnip E) l P -> alike (catnip E) P -> wf P -> In f file_flags ->
  says P l f (if existsb (str_eqb f) pun_flags then log_exts else pun_exts).
Proof.
  intros V R L W I. assert (C : In f pun_flags \/ In f [$"--log_P"; $"--log_1"; $"--log_2"]).
  { unfold file_flags, pun_flags in *. cbn [In] in *. tauto. }
  destruct C as [C|C].
  - destruct (pun_obj_ok (E:=E) f C) as (a & F & O). pose proof (proj2 (existsb_str f pun_flags) C) as X. rewrite X. eapply file_says; eauto.
  - destruct (log_obj_ok (E:=E) f C) as (a & F & O). assert (X : existsb (str_eqb f) pun_flags = false) by (destruct C as [<-|[<-|[<-|[]]]]; reflexivity). rewrite X. eapply file_says; eauto.
Qed.
Lemma resolve_all l P : valid (catnip E) l -> run (catnip E) l P -> alike (catnip E) P -> wf P ->
  (forall f w, In f file_flags -> In (f, w) (given l) -> no_white w) ->
  exists m, for_each file_pairs (resolve_flag P) ([], []) = Ok m /\
    forall own partner, In (own, partner) file_pairs -> exists sis, pick m own = picked (own_name (E:=E) l own) sis /\
      sis_name l partner (if existsb (str_eqb own) pun_flags then pun_exts else log_exts) sis.
Proof.
  intros V R L W Nw. destruct exts_fine as (X1 & X2 & X3 & X4).
  assert (St : forall f g, In f file_flags -> exists sis, (forall m, resolve_flag P (f, g) m = Ok (upd (own_name (E:=E) l f) f (fst m), upd sis g (snd m))) /\
     sis_name l f (if existsb (str_eqb f) pun_flags then log_exts else pun_exts) sis).
  { intros f g I. pose proof (says_all l P f V R L W I) as S. eapply resolve_says in S as (sis & A & B & C).
    - exists sis. split; [exact A|split; [exact B|exact C]].
    - destruct (existsb _ _); discriminate.
    - intros w. apply Nw; auto.
    - destruct (existsb _ _); auto.
    - destruct (existsb _ _); auto. }
  assert (I6 : In $"--pun_P" file_flags /\ In $"--pun_1" file_flags /\ In $"--pun_2" file_flags /\ In $"--log_P" file_flags /\ In $"--log_1" file_flags /\ In $"--log_2" file_flags) by (unfold file_flags; cbn [In]; tauto).
  destruct I6 as (I1 & I2 & I3 & I4 & I5 & I6).
  destruct (St _ $"--log_P" I1) as (sP & AP & BP). destruct (St _ $"--log_1" I2) as (s1 & A1 & B1). destruct (St _ $"--log_2" I3) as (s2 & A2 & B2).
  destruct (St _ $"--pun_P" I4) as (tP & CP & DP). destruct (St _ $"--pun_1" I5) as (t1 & C1 & D1). destruct (St _ $"--pun_2" I6) as (t2 & C2 & D2).
  unfold file_pairs at 1. cbn [for_each]. rewrite AP. cbn [bind]. rewrite A1. cbn [bind]. rewrite A2. cbn [bind]. rewrite CP. cbn [bind]. rewrite C1. cbn [bind]. rewrite C2. cbn [bind fst snd].
  eexists. split; [reflexivity|].
  match goal with |- context [pick ?m _] => destruct (pick_six (own_name (E:=E) l $"--pun_P") (own_name (E:=E) l $"--pun_1") (own_name (E:=E) l $"--pun_2") (own_name (E:=E) l $"--log_P") (own_name (E:=E) l $"--log_1") (own_name (E:=E) l $"--log_2") sP s1 s2 tP t1 t2 m eq_refl eq_refl) as (P1 & P2 & P3 & P4 & P5 & P6) end.
  intros own partner I. unfold file_pairs in I. cbn [In] in I.
  destruct I as [I|[I|[I|[I|[I|[I|[]]]]]]]; inversion I; subst own partner; [exists tP|exists t1|exists t2|exists sP|exists s1|exists s2]; split; assumption.
Qed.
End Params.
