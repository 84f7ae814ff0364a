(** * Properties C58-C60, C62, C63: CATNIP's own command line *)
From Verif Require Export CatnipMore.
Open Scope Z_scope.

(** ** C63 *)
(** [set] stores its argument as the [k]-th name and changes nothing else, if it ends in [ext]; otherwise it throws *)
Definition file_setter (set : str -> params -> outcome params) (k : nat) (ext : str) : Prop := forall s p, storable s ->
  (ends_in s ext -> exists p', set s p = Ok p' /\ settings p' = settings p /\
     nth_error (names p') k = Some s /\ forall j, j <> k -> nth_error (names p') j = nth_error (names p) j) /\
  (~ ends_in s ext -> set s p = Throw (if Z.of_nat (length s) <? 4 then OutOfRange else InvalidArgument)).
Ltac setter := intros s p St; destruct (check_ext_ok $".log" s eq_refl St) as [?L1 ?L2]; destruct (check_ext_ok $".pun" s eq_refl St) as [?L3 ?L4];
  split; [intros E1; eexists; split; [first [rewrite L1 by auto|rewrite L3 by auto]; reflexivity|]; split; [reflexivity|]; split; [reflexivity|];
    intros [|[|[|[|[|[|j]]]]]] N; try reflexivity; exfalso; apply N; reflexivity
  | intros E1; first [rewrite L2 by auto|rewrite L4 by auto]; reflexivity].
Theorem C63_setters :
  file_setter setLog1 0 $".log" /\ file_setter setLog2 1 $".log" /\ file_setter setLogP 2 $".log" /\
  file_setter setPun1 3 $".pun" /\ file_setter setPun2 4 $".pun" /\ file_setter setPunP 5 $".pun".
Proof.
  split; [unfold setLog1; setter|]. split; [unfold setLog2; setter|]. split; [unfold setLogP; setter|].
  split; [unfold setPun1; setter|]. split; [unfold setPun2; setter|unfold setPunP; setter].
Qed.
Print Assumptions C63_setters.
Example C63_example : ends_in $"runs/a.log" $".log" /\ storable $"runs/a.log" /\ ~ ends_in $"a.Log" $".log" /\ setLog1 $"log" Parameters = Throw OutOfRange.
Proof.
  split; [exists $"runs/a"; reflexivity|]. split; [vm_compute; reflexivity|]. split; [|reflexivity].
  intros (t & H). apply (f_equal (@rev ascii)) in H. rewrite rev_app_distr in H. discriminate.
Qed.

(** ** C58 *)
(** the suffixes, for every parser *)
Theorem C58_suffixes : forall E (P : parser E) p, prepareParameters P = Ok p ->
  forall own partner exts ext n, In (own, partner, exts, ext, n) (files p) -> ends_in n ext.
Proof.
  intros E P p H own partner exts ext n I. destruct (prepare_resolves _ _ H) as (m & Hm). apply (prepare_iff _ _ _ Hm) in H.
  destruct H as ((_ & A1) & (_ & A2) & (_ & A3) & (_ & A4) & (_ & A5) & (_ & A6) & _).
  unfold files in I. cbn [In] in I. destruct I as [I|[I|[I|[I|[I|[I|[]]]]]]]; inversion I; subst; apply check_ext_ends; auto.
Qed.
Print Assumptions C58_suffixes.
(** the names, when no path contains white space and no file flag is repeated with another value *)
Theorem C58_resolved_partial : forall E prog l P p, valid (catnip E) l -> parse (prog :: words l) (catnip E) = Ok P ->
  (forall f w, In f file_flags -> In (f, w) (given l) -> no_white w) -> (forall f, In f file_flags -> once f l) ->
  prepareParameters P = Ok p ->
  forall own partner exts ext n, In (own, partner, exts, ext, n) (files p) ->
    resolves E l own partner exts n /\ ends_in n ext /\ file_exists E n = true.
Proof.
  intros E prog l P p V Hp Nw On H own partner exts ext n I. pose proof (C58_suffixes _ _ _ H _ _ _ _ _ I) as Se.
  destruct (parsed _ _ _ V Hp) as (R & L & W). destruct (resolve_all l P V R L W Nw) as (m & Hm & Pk).
  apply (prepare_iff _ _ _ Hm) in H. destruct H as ((A1 & _) & (A2 & _) & (A3 & _) & (A4 & _) & (A5 & _) & (A6 & _) & _).
  assert (G : forall own partner n, In (own, partner) file_pairs -> In own file_flags -> pick m own = Ok n ->
     resolves E l own partner (if existsb (str_eqb own) pun_flags then pun_exts else log_exts) n).
  { intros own' partner' n' Ip Io Hk. destruct (Pk _ _ Ip) as (sis & E1 & Sn). rewrite E1 in Hk. eapply picked_iff; eauto. }
  assert (Rs : resolves E l own partner exts n).
  { unfold files in I. cbn [In] in I. destruct I as [I|[I|[I|[I|[I|[I|[]]]]]]]; inversion I; subst own partner exts ext n;
    (eapply G in A1; [|left; reflexivity|unfold file_flags; cbn [In]; tauto]); (eapply G in A2; [|right; left; reflexivity|unfold file_flags; cbn [In]; tauto]);
    (eapply G in A3; [|right; right; left; reflexivity|unfold file_flags; cbn [In]; tauto]); (eapply G in A4; [|right; right; right; left; reflexivity|unfold file_flags; cbn [In]; tauto]);
    (eapply G in A5; [|do 4 right; left; reflexivity|unfold file_flags; cbn [In]; tauto]); (eapply G in A6; [|do 5 right; left; reflexivity|unfold file_flags; cbn [In]; tauto]);
    assumption. }
  split; [auto|]. split; [auto|]. destruct Rs as [[_ F]|[_ (w & _ & a & e & b & _ & _ & F & _)]]; auto.
Qed.
Print Assumptions C58_resolved_partial.
(** at most one name is resolved *)
Theorem C58_unique : forall E l own partner exts n n', resolves E l own partner exts n -> resolves E l own partner exts n' -> n = n'.
Proof.
  intros E l own partner exts n n' [[L F]|[N (w & Lw & B)]] [[L' F']|[N' (w' & Lw' & B')]].
  - eapply last_unique; eauto.
  - rewrite (N' n L) in F. discriminate.
  - rewrite (N n' L') in F'. discriminate.
  - rewrite (last_unique _ _ _ _ Lw' Lw) in B'. destruct (path_is_exists w) as (dir & core & ext & Hp).
    apply (best_sister_iff _ _ _ _ _ _ Hp) in B. apply (best_sister_iff _ _ _ _ _ _ Hp) in B'. congruence.
Qed.
Print Assumptions C58_unique.

(** ** C62 *)
Section Settings.
Context {E : env}.
Lemma settings_read l P : valid (catnip E) l -> run (catnip E) l P ->
  exists sP s1 s2 t1 t2 n1 n2,
    (getStr P $"--spin_P" = Ok sP /\ value_or $"--spin_P" $"Alpha" l sP /\ In sP [$"Alpha"; $"Beta"]) /\
    (getStr P $"--spin_1" = Ok s1 /\ value_or $"--spin_1" $"Alpha" l s1 /\ In s1 [$"Alpha"; $"Beta"]) /\
    (getStr P $"--spin_2" = Ok s2 /\ value_or $"--spin_2" $"Alpha" l s2 /\ In s2 [$"Alpha"; $"Beta"]) /\
    (getStr P $"--orbital_type_1" = Ok t1 /\ value_or $"--orbital_type_1" $"HOMO" l t1 /\ In t1 [$"HOMO"; $"LUMO"]) /\
    (getStr P $"--orbital_type_2" = Ok t2 /\ value_or $"--orbital_type_2" $"HOMO" l t2 /\ In t2 [$"HOMO"; $"LUMO"]) /\
    (getInt P $"--orbital_num_1" = Ok n1 /\ number_or $"--orbital_num_1" 0 l n1) /\
    (getInt P $"--orbital_num_2" = Ok n2 /\ number_or $"--orbital_num_2" 0 l n2) /\
    getInt P $"--counter_poise" = Ok (if in_dec str_dec $"--counter_poise" (switched l) then 1 else 0) /\
    getInt P $"--citation" = Ok (if in_dec str_dec $"--citation" (switched l) then 1 else 0).
Proof.
  intros V R.
  destruct (choice_value l P $"--spin_P" [$"Alpha"; $"Beta"] $"Alpha" V R) as (sP & A1); [apply spin_find; cbn [In]; tauto|vm_compute; reflexivity|left; auto|].
  destruct (choice_value l P $"--spin_1" [$"Alpha"; $"Beta"] $"Alpha" V R) as (s1 & A2); [apply spin_find; cbn [In]; tauto|vm_compute; reflexivity|left; auto|].
  destruct (choice_value l P $"--spin_2" [$"Alpha"; $"Beta"] $"Alpha" V R) as (s2 & A3); [apply spin_find; cbn [In]; tauto|vm_compute; reflexivity|left; auto|].
  destruct (choice_value l P $"--orbital_type_1" [$"HOMO"; $"LUMO"] $"HOMO" V R) as (t1 & A4); [apply type_find; cbn [In]; tauto|vm_compute; reflexivity|left; auto|].
  destruct (choice_value l P $"--orbital_type_2" [$"HOMO"; $"LUMO"] $"HOMO" V R) as (t2 & A5); [apply type_find; cbn [In]; tauto|vm_compute; reflexivity|left; auto|].
  destruct (num_value l P $"--orbital_num_1" V R) as (n1 & A6); [apply num_find; cbn [In]; tauto|vm_compute; reflexivity|].
  destruct (num_value l P $"--orbital_num_2" V R) as (n2 & A7); [apply num_find; cbn [In]; tauto|vm_compute; reflexivity|].
  exists sP, s1, s2, t1, t2, n1, n2. split; [exact A1|]. split; [exact A2|]. split; [exact A3|]. split; [exact A4|]. split; [exact A5|]. split; [exact A6|]. split; [exact A7|].
  split; apply switch_value; auto; try (vm_compute; reflexivity); eexists; vm_compute; reflexivity.
Qed.
End Settings.
Theorem C62_settings : forall E prog l P p, valid (catnip E) l -> parse (prog :: words l) (catnip E) = Ok P -> prepareParameters P = Ok p ->
  (is_spin (spinP p) /\ is_spin (spin1 p) /\ is_spin (spin2 p)) /\
  (consistent (orb_type1 p) (orb_num1 p) /\ consistent (orb_type2 p) (orb_num2 p)) /\
  (value_or $"--spin_P" $"Alpha" l (spinP p) /\ value_or $"--spin_1" $"Alpha" l (spin1 p) /\ value_or $"--spin_2" $"Alpha" l (spin2 p)) /\
  (value_or $"--orbital_type_1" $"HOMO" l (orb_type1 p) /\ value_or $"--orbital_type_2" $"HOMO" l (orb_type2 p)) /\
  (number_or $"--orbital_num_1" 0 l (orb_num1 p) /\ number_or $"--orbital_num_2" 0 l (orb_num2 p)) /\
  (counterPoise p = true <-> In $"--counter_poise" (switched l)).
Proof.
  intros E prog l P p V Hp H. destruct (parsed _ _ _ V Hp) as (R & L & W).
  destruct (settings_read l P V R) as (sP & s1 & s2 & t1 & t2 & n1 & n2 & (G1 & V1 & I1) & (G2 & V2 & I2) & (G3 & V3 & I3) & (G4 & V4 & I4) & (G5 & V5 & I5) & (G6 & V6) & (G7 & V7) & G8 & G9).
  destruct (prepare_resolves _ _ H) as (m & Hm). apply (prepare_iff _ _ _ Hm) in H.
  destruct H as (_ & _ & _ & _ & _ & _ & S1 & S2 & S3 & (v & C1 & C2) & _ & O1 & O2 & _).
  apply (orbital_iff _ _ _ _ _ _ _ G4 I4 G6) in O1. destruct O1 as (-> & -> & O1).
  apply (orbital_iff _ _ _ _ _ _ _ G5 I5 G7) in O2. destruct O2 as (-> & -> & O2).
  assert (X1 : sP = spinP p) by congruence. assert (X2 : s1 = spin1 p) by congruence. assert (X3 : s2 = spin2 p) by congruence. subst sP s1 s2.
  assert (Sp : forall s, In s [$"Alpha"; $"Beta"] -> is_spin s) by (intros s [<-|[<-|[]]]; [left|right]; auto).
  split; [split; [auto|split; auto]|]. split; [auto|]. split; [auto|]. split; [auto|]. split; [auto|].
  rewrite C2. assert (Hv : v = if in_dec str_dec $"--counter_poise" (switched l) then 1 else 0) by congruence. rewrite Hv. clear Hv G8 C1. destruct (in_dec str_dec $"--counter_poise" (switched l)) as [I|I]; [split; [auto|reflexivity]|split; [intros X; vm_compute in X; discriminate X|intros X; destruct (I X)]].
Qed.
Print Assumptions C62_settings.
(** an orbital number on the wrong side is rejected *)
Theorem C62_rejected : forall E prog l P, valid (catnip E) l -> parse (prog :: words l) (catnip E) = Ok P ->
  (exists ty n, value_or $"--orbital_type_1" $"HOMO" l ty /\ number_or $"--orbital_num_1" 0 l n /\ ~ consistent ty n) \/
  (exists ty n, value_or $"--orbital_type_2" $"HOMO" l ty /\ number_or $"--orbital_num_2" 0 l n /\ ~ consistent ty n) ->
  forall p, prepareParameters P <> Ok p.
Proof.
  intros E prog l P V Hp Bad p H. destruct (C62_settings _ _ _ _ _ V Hp H) as (_ & (O1 & O2) & _ & (T1 & T2) & (N1 & N2) & _).
  assert (U : forall f d v v', value_or f d l v -> value_or f d l v' -> v = v').
  { intros f d v v' [A|[A ->]] [B|[B ->]]; auto; [eapply last_unique; eauto|exfalso; eapply B, last_in; eauto|exfalso; eapply A, last_in; eauto]. }
  assert (Un : forall f d v v', number_or f d l v -> number_or f d l v' -> v = v').
  { intros f d v v' [(w & A & A')|[A ->]] [(w' & B & B')|[B ->]]; auto; [rewrite (last_unique _ _ _ _ A B) in A'; congruence|exfalso; eapply B, last_in; eauto|exfalso; eapply A, last_in; eauto]. }
  destruct Bad as [(ty & n & A & B & C)|(ty & n & A & B & C)]; apply C.
  - rewrite (U _ _ _ _ A T1), (Un _ _ _ _ B N1). auto.
  - rewrite (U _ _ _ _ A T2), (Un _ _ _ _ B N2). auto.
Qed.
Print Assumptions C62_rejected.

(** ** C58, the other direction: if all six names resolve and the orbitals are consistent, prepareParameters succeeds *)
Theorem C58_complete_partial : forall E prog l P, valid (catnip E) l -> parse (prog :: words l) (catnip E) = Ok P ->
  (forall f w, In f file_flags -> In (f, w) (given l) -> no_white w) -> (forall f, In f file_flags -> once f l) ->
  (forall own partner exts ext n0, In (own, partner, exts, ext, n0) (files Parameters) -> exists n, resolves E l own partner exts n /\ ends_in n ext /\ storable n) ->
  (forall ty n, value_or $"--orbital_type_1" $"HOMO" l ty -> number_or $"--orbital_num_1" 0 l n -> consistent ty n) ->
  (forall ty n, value_or $"--orbital_type_2" $"HOMO" l ty -> number_or $"--orbital_num_2" 0 l n -> consistent ty n) ->
  exists p, prepareParameters P = Ok p.
Proof.
  intros E prog l P V Hp Nw On Rs Co1 Co2. destruct (parsed _ _ _ V Hp) as (R & L & W). destruct (resolve_all l P V R L W Nw) as (m & Hm & Pk).
  destruct (settings_read l P V R) as (sP & s1 & s2 & t1 & t2 & n1 & n2 & (G1 & V1 & I1) & (G2 & V2 & I2) & (G3 & V3 & I3) & (G4 & V4 & I4) & (G5 & V5 & I5) & (G6 & V6) & (G7 & V7) & G8 & G9).
  assert (G : forall own partner ext n0, In (own, partner, (if existsb (str_eqb own) pun_flags then pun_exts else log_exts), ext, n0) (files Parameters) ->
     In (own, partner) file_pairs -> In own file_flags -> len ext = 4 -> exists n, pick m own = Ok n /\ check_ext ext n = Ok tt).
  { intros own partner ext n0 I Ip Io Le. destruct (Rs _ _ _ _ _ I) as (n & Rn & En & Sn). exists n. destruct (Pk _ _ Ip) as (sis & E1 & Sis). split.
    - rewrite E1. eapply picked_iff; eauto.
    - apply (check_ext_ok ext n Le Sn); auto. }
  destruct (G $"--pun_P" $"--log_P" $".pun" []) as (a1 & A1); [left; reflexivity|left; reflexivity|unfold file_flags; cbn [In]; tauto|reflexivity|].
  destruct (G $"--pun_1" $"--log_1" $".pun" []) as (a2 & A2); [right; left; reflexivity|right; left; reflexivity|unfold file_flags; cbn [In]; tauto|reflexivity|].
  destruct (G $"--pun_2" $"--log_2" $".pun" []) as (a3 & A3); [do 2 right; left; reflexivity|do 2 right; left; reflexivity|unfold file_flags; cbn [In]; tauto|reflexivity|].
  destruct (G $"--log_P" $"--pun_P" $".log" []) as (a4 & A4); [do 3 right; left; reflexivity|do 3 right; left; reflexivity|unfold file_flags; cbn [In]; tauto|reflexivity|].
  destruct (G $"--log_1" $"--pun_1" $".log" []) as (a5 & A5); [do 4 right; left; reflexivity|do 4 right; left; reflexivity|unfold file_flags; cbn [In]; tauto|reflexivity|].
  destruct (G $"--log_2" $"--pun_2" $".log" []) as (a6 & A6); [do 5 right; left; reflexivity|do 5 right; left; reflexivity|unfold file_flags; cbn [In]; tauto|reflexivity|].
  exists (mkParams a5 a6 a4 a2 a3 a1 sP s1 s2 [] t1 t2 0 n1 n2 
    (Some (negb ((if in_dec str_dec $"--citation" (switched l) then 1 else 0) =? 0))) (negb ((if in_dec str_dec $"--counter_poise" (switched l) then 1 else 0) =? 0))).
  apply (prepare_iff _ _ _ Hm). cbn [punP pun1 pun2 logP log1 log2 spinP spin1 spin2 counterPoise citation orb_type1 orb_num1 orb_type2 orb_num2 orb_typeP orb_numP].
  split; [exact A1|]. split; [exact A2|]. split; [exact A3|]. split; [exact A4|]. split; [exact A5|]. split; [exact A6|].
  split; [exact G1|]. split; [exact G2|]. split; [exact G3|]. split; [eexists; split; [exact G8|reflexivity]|]. split; [eexists; split; [exact G9|reflexivity]|].
  split; [apply (orbital_iff _ _ _ _ _ _ _ G4 I4 G6); auto|]. split; [apply (orbital_iff _ _ _ _ _ _ _ G5 I5 G7); auto|]. auto.
Qed.
Print Assumptions C58_complete_partial.

(** ** C62, the exception: with six names that resolve, an inconsistent orbital makes prepareParameters throw invalid_argument *)
Lemma orbital_throws {E} (P : parser E) tf nf ty v : getStr P tf = Ok ty -> In ty [$"HOMO"; $"LUMO"] -> getInt P nf = Ok v -> ~ consistent ty v -> orbital P tf nf = Throw InvalidArgument.
Proof.
  intros G I N C. unfold orbital. rewrite G. cbn [bind]. rewrite N. cbn [bind]. destruct I as [<-|[<-|[]]].
  - change (str_eqb $"HOMO" $"HOMO") with true. cbv iota. destruct (Z.ltb_spec 0 v); [reflexivity|]. destruct C. left. auto.
  - change (str_eqb $"LUMO" $"HOMO") with false. change (str_eqb $"LUMO" $"LUMO") with true. cbv iota. destruct (Z.ltb_spec v 0); [reflexivity|]. destruct C. right. auto.
Qed.
Theorem C62_refusal : forall E prog l P, valid (catnip E) l -> parse (prog :: words l) (catnip E) = Ok P ->
  (forall f w, In f file_flags -> In (f, w) (given l) -> no_white w) -> (forall f, In f file_flags -> once f l) ->
  (forall own partner exts ext n0, In (own, partner, exts, ext, n0) (files Parameters) -> exists n, resolves E l own partner exts n /\ ends_in n ext /\ storable n) ->
  (exists ty n, value_or $"--orbital_type_1" $"HOMO" l ty /\ number_or $"--orbital_num_1" 0 l n /\ ~ consistent ty n) \/
  (exists ty n, value_or $"--orbital_type_2" $"HOMO" l ty /\ number_or $"--orbital_num_2" 0 l n /\ ~ consistent ty n) ->
  prepareParameters P = Throw InvalidArgument.
Proof.
  intros E prog l P V Hp Nw On Rs Bad. destruct (parsed _ _ _ V Hp) as (R & L & W). destruct (resolve_all l P V R L W Nw) as (m & Hm & Pk).
  destruct (settings_read l P V R) as (sP & s1 & s2 & t1 & t2 & n1 & n2 & (G1 & V1 & I1) & (G2 & V2 & I2) & (G3 & V3 & I3) & (G4 & V4 & I4) & (G5 & V5 & I5) & (G6 & V6) & (G7 & V7) & G8 & G9).
  assert (G : forall own partner ext n0, In (own, partner, (if existsb (str_eqb own) pun_flags then pun_exts else log_exts), ext, n0) (files Parameters) ->
     In (own, partner) file_pairs -> In own file_flags -> len ext = 4 -> exists n, pick m own = Ok n /\ check_ext ext n = Ok tt).
  { intros own partner ext n0 I Ip Io Le. destruct (Rs _ _ _ _ _ I) as (n & Rn & En & Sn). exists n. destruct (Pk _ _ Ip) as (sis & E1 & Sis). split.
    - rewrite E1. eapply picked_iff; eauto.
    - apply (check_ext_ok ext n Le Sn); auto. }
  destruct (G $"--pun_P" $"--log_P" $".pun" []) as (a1 & A1); [left; reflexivity|left; reflexivity|unfold file_flags; cbn [In]; tauto|reflexivity|].
  destruct (G $"--pun_1" $"--log_1" $".pun" []) as (a2 & A2); [right; left; reflexivity|right; left; reflexivity|unfold file_flags; cbn [In]; tauto|reflexivity|].
  destruct (G $"--pun_2" $"--log_2" $".pun" []) as (a3 & A3); [do 2 right; left; reflexivity|do 2 right; left; reflexivity|unfold file_flags; cbn [In]; tauto|reflexivity|].
  destruct (G $"--log_P" $"--pun_P" $".log" []) as (a4 & A4); [do 3 right; left; reflexivity|do 3 right; left; reflexivity|unfold file_flags; cbn [In]; tauto|reflexivity|].
  destruct (G $"--log_1" $"--pun_1" $".log" []) as (a5 & A5); [do 4 right; left; reflexivity|do 4 right; left; reflexivity|unfold file_flags; cbn [In]; tauto|reflexivity|].
  destruct (G $"--log_2" $"--pun_2" $".log" []) as (a6 & A6); [do 5 right; left; reflexivity|do 5 right; left; reflexivity|unfold file_flags; cbn [In]; tauto|reflexivity|].
  assert (U : forall f d v v', value_or f d l v -> value_or f d l v' -> v = v').
  { intros f d v v' [A|[A ->]] [B|[B ->]]; auto; [eapply last_unique; eauto|exfalso; eapply B, last_in; eauto|exfalso; eapply A, last_in; eauto]. }
  assert (Un : forall f d v v', number_or f d l v -> number_or f d l v' -> v = v').
  { intros f d v v' [(w & A & A')|[A ->]] [(w' & B & B')|[B ->]]; auto; [rewrite (last_unique _ _ _ _ A B) in A'; congruence|exfalso; eapply B, last_in; eauto|exfalso; eapply A, last_in; eauto]. }
  assert (Cd : consistent t1 n1 \/ ~ consistent t1 n1).
  { unfold consistent. destruct (Z_le_dec n1 0), (Z_le_dec 0 n1); destruct I4 as [<-|[<-|[]]]; first [left; left; split; [reflexivity|assumption]|left; right; split; [reflexivity|assumption]|right; intros [[X Y]|[X Y]]; first [discriminate X|contradiction]]. }
  destruct Cd as [Cd|Cd].
  - destruct Bad as [(ty & n & A & B & C)|(ty & n & A & B & C)].
    + destruct C. rewrite (U _ _ _ _ A V4), (Un _ _ _ _ B V6). exact Cd.
    + rewrite (U _ _ _ _ A V5), (Un _ _ _ _ B V7) in C.
      refine (prepare_throws P m a1 a2 a3 a4 a5 a6 sP s1 s2 _ _ _ Hm A1 A2 A3 A4 A5 A6 G1 G2 G3 G8 G9 (or_intror (conj _ (orbital_throws P _ _ _ _ G5 I5 G7 C)))).
      exists (t1, n1). exact (proj2 (orbital_iff P _ _ _ _ n1 t1 G4 I4 G6) (conj eq_refl (conj eq_refl Cd))).
  - exact (prepare_throws P m a1 a2 a3 a4 a5 a6 sP s1 s2 _ _ _ Hm A1 A2 A3 A4 A5 A6 G1 G2 G3 G8 G9 (or_introl (orbital_throws P _ _ _ _ G4 I4 G6 Cd))).
Qed.
Print Assumptions C62_refusal.


(** ** without restrictions on the paths *)
Section Any.
Context {E : env}.
Lemma any_step (P : parser E) l f g exts m m' : says P l f exts -> resolve_flag P (f, g) m = Ok m' ->
  exists sis, fst m' = upd (own_name (E:=E) l f) f (fst m) /\ snd m' = upd sis g (snd m) /\ forall q, sis = Some q -> word q.
Proof.
  intros (S1 & S2 & S3 & S4) H. unfold resolve_flag in H. rewrite S1 in H. cbn [bind] in H.
  apply bind_ok in H as (fa & Ha & H). apply bind_ok in H as (line & _ & H). apply bind_ok in H as (line2 & _ & H). apply bind_ok in H as (r & Hr & H).
  destruct (sis_loop_any g (splitSt line2) (splitSt line) (0, snd m) r Hr) as (o & Ho & Io). inversion H; subst m'. cbn [fst snd] in *.
  exists o. split; [|split; [exact Ho|]].
  - unfold own_name. destruct (existsb (file_exists E) (vals f l)) eqn:X; cbv iota in Ha.
    + change (str_eqb $"1" $"1") with true in Ha. cbv iota in Ha.
      assert (Nv : vals f l <> []) by (intros C; rewrite C in X; discriminate). destruct (exists_last Nv) as (q & w & Hw).
      rewrite (S3 w) in Ha by (apply vals_last; eauto). rewrite Hw, last_last. cbn [bind] in Ha. inversion Ha; reflexivity.
    + inversion Ha; reflexivity.
  - intros q Hq. specialize (Io q Hq). pose proof (splitSt_words line2) as Fw. rewrite Forall_forall in Fw. auto.
Qed.
Lemma any_all prog l P p : valid (catnip E) l -> parse (prog :: words l) (catnip E) = Ok P -> prepareParameters P = Ok p ->
  forall own partner exts ext n, In (own, partner, exts, ext, n) (files p) ->
  exists sis, picked (own_name (E:=E) l own) sis = Ok n /\ forall q, sis = Some q -> word q.
Proof.
  intros V Hp H. destruct (parsed _ _ _ V Hp) as (R & L & W). destruct (prepare_resolves _ _ H) as (m & Hm). pose proof Hm as Hm0.
  apply (prepare_iff _ _ _ Hm0) in H. destruct H as ((A1 & _) & (A2 & _) & (A3 & _) & (A4 & _) & (A5 & _) & (A6 & _) & _).
  unfold file_pairs in Hm. cbn [for_each] in Hm.
  apply bind_ok in Hm as (m1 & H1 & Hm). apply bind_ok in Hm as (m2 & H2 & Hm). apply bind_ok in Hm as (m3 & H3 & Hm).
  apply bind_ok in Hm as (m4 & H4 & Hm). apply bind_ok in Hm as (m5 & H5 & Hm). apply bind_ok in Hm as (m6 & H6 & Hm). inversion Hm; subst m6.
  assert (Sy : forall f, In f file_flags -> says P l f (if existsb (str_eqb f) pun_flags then log_exts else pun_exts)) by (intros; apply says_all; auto).
  destruct (any_step _ _ _ _ _ _ _ (Sy $"--pun_P" ltac:(unfold file_flags; cbn [In]; tauto)) H1) as (x1 & F1 & G1 & W1).
  destruct (any_step _ _ _ _ _ _ _ (Sy $"--pun_1" ltac:(unfold file_flags; cbn [In]; tauto)) H2) as (x2 & F2 & G2 & W2).
  destruct (any_step _ _ _ _ _ _ _ (Sy $"--pun_2" ltac:(unfold file_flags; cbn [In]; tauto)) H3) as (x3 & F3 & G3 & W3).
  destruct (any_step _ _ _ _ _ _ _ (Sy $"--log_P" ltac:(unfold file_flags; cbn [In]; tauto)) H4) as (x4 & F4 & G4 & W4).
  destruct (any_step _ _ _ _ _ _ _ (Sy $"--log_1" ltac:(unfold file_flags; cbn [In]; tauto)) H5) as (x5 & F5 & G5 & W5).
  destruct (any_step _ _ _ _ _ _ _ (Sy $"--log_2" ltac:(unfold file_flags; cbn [In]; tauto)) H6) as (x6 & F6 & G6 & W6).
  cbn [fst snd] in F1, G1. rewrite F1 in F2. rewrite F2 in F3. rewrite F3 in F4. rewrite F4 in F5. rewrite F5 in F6.
  rewrite G1 in G2. rewrite G2 in G3. rewrite G3 in G4. rewrite G4 in G5. rewrite G5 in G6.
  destruct (pick_six _ _ _ _ _ _ _ _ _ _ _ _ m F6 G6) as (P1 & P2 & P3 & P4 & P5 & P6).
  rewrite P1 in A1. rewrite P2 in A2. rewrite P3 in A3. rewrite P4 in A4. rewrite P5 in A5. rewrite P6 in A6.
  intros own partner exts ext n I. unfold files in I. cbn [In] in I.
  destruct I as [I|[I|[I|[I|[I|[I|[]]]]]]]; inversion I; subst own partner exts ext n; [exists x4|exists x5|exists x6|exists x1|exists x2|exists x3]; split; assumption.
Qed.
End Any.
(** whatever the paths: once any file given with a flag existed, the last name given with it is used, whether that file exists or not *)
Theorem C58_repeated_refuted : forall E prog l P p, valid (catnip E) l -> parse (prog :: words l) (catnip E) = Ok P -> prepareParameters P = Ok p ->
  forall own partner exts ext n w w', In (own, partner, exts, ext, n) (files p) ->
    last_value own l w -> In (own, w') (given l) -> file_exists E w' = true -> n = w.
Proof.
  intros E prog l P p V Hp H own partner exts ext n w w' I Lw Iw Fw. destruct (any_all _ _ _ _ V Hp H _ _ _ _ _ I) as (sis & Pk & _).
  unfold picked, own_name in Pk. assert (X : existsb (file_exists E) (vals own l) = true) by (apply existsb_exists; exists w'; split; auto; apply in_vals; auto).
  rewrite X in Pk. cbn [orelse] in Pk. inversion Pk. apply vals_last in Lw as (r & ->). apply last_last.
Qed.
Print Assumptions C58_repeated_refuted.

(** a file system with the six files, one name with a blank *)
Definition disk (l : list str) : env :=
  {| D := Z; d_lt := Z.ltb; d_lowest := -1000; d_max := 1000; d_text := dec; e_stod := stoi; file_exists := fun p => existsb (str_eqb p) l |}.
Definition disk1 : env := disk [$"runs/dimer.pun"; $"runs/dimer.log"; $"m1.pun"; $"m1.log"; $"m2.pun"; $"m2.log"; $"m1.7"].
Definition line2 : list item :=
  [IVal $"-p_P" $"--pun_P" $"runs/dimer.pun"; IVal $"-l_1" $"--log_1" $"m1.log"; IVal $"-p_2" $"--pun_2" $"m2.pun"; IVal $"-l_2" $"--log_2" $"m2.log";
   IVal $"-orb_ty_2" $"--orbital_type_2" $"LUMO"; IVal $"-orb_num_2" $"--orbital_num_2" $"1"].
(** the names and some settings after a line *)
Definition result E (l : list item) : outcome (list str * (list str * list Z * option bool * bool)) :=
  P <- parse ($"calc_J" :: words l) (catnip E) ;; p <- prepareParameters P ;; Ok (names p, settings p).
Lemma result_inv E l r : result E l = Ok r -> exists P p, parse ($"calc_J" :: words l) (catnip E) = Ok P /\ prepareParameters P = Ok p /\ r = (names p, settings p).
Proof. unfold result. intros H. apply bind_ok in H as (P & H1 & H). apply bind_ok in H as (p & H2 & H). inversion H. eauto. Qed.
Lemma once_b l f : forallb (fun x => forallb (fun y => negb (str_eqb (fst x) f) || negb (str_eqb (fst y) f) || str_eqb (snd x) (snd y)) (given l)) (given l) = true -> once f l.
Proof.
  rewrite forallb_forall. intros H w w' I I'. specialize (H _ I). rewrite forallb_forall in H. specialize (H _ I'). cbn [fst snd] in H.
  rewrite !str_eqb_refl in H. cbn [negb orb] in H. now apply str_eqb_eq in H.
Qed.
Lemma no_white_b w : forallb (fun c => negb (is_space c)) w = true -> no_white w.
Proof. intros H c I. rewrite forallb_forall in H. specialize (H c I). apply negb_true_iff in H. now apply is_space_nin. Qed.
Lemma tame_b l : forallb (fun x => forallb (fun c => negb (is_space c)) (snd x)) (given l) = true ->
  forall f w, In f file_flags -> In (f, w) (given l) -> no_white w.
Proof. rewrite forallb_forall. intros H f w _ I. apply no_white_b. exact (H _ I). Qed.
Example C58_example : exists P p, parse ($"calc_J" :: words line2) (catnip disk1) = Ok P /\ prepareParameters P = Ok p /\
  valid (catnip disk1) line2 /\ (forall f w, In f file_flags -> In (f, w) (given line2) -> no_white w) /\ (forall f, In f file_flags -> once f line2) /\
  names p = [$"m1.log"; $"m2.log"; $"runs/dimer.log"; $"m1.pun"; $"m2.pun"; $"runs/dimer.pun"] /\
  settings p = ([$"Alpha"; $"Alpha"; $"Alpha"; []; $"HOMO"; $"LUMO"], [0; 0; 1], Some false, false).
Proof.
  assert (R : result disk1 line2 = Ok ([$"m1.log"; $"m2.log"; $"runs/dimer.log"; $"m1.pun"; $"m2.pun"; $"runs/dimer.pun"],
     ([$"Alpha"; $"Alpha"; $"Alpha"; []; $"HOMO"; $"LUMO"], [0; 0; 1], Some false, false))) by (vm_compute; reflexivity).
  apply result_inv in R as (P & p & H1 & H2 & H3). exists P, p. split; [auto|]. split; [auto|].
  split; [apply validb_ok; [apply catnip_wf|vm_compute; reflexivity]|]. split; [apply tame_b; vm_compute; reflexivity|].
  split; [intros f I; apply once_b; unfold file_flags in I; cbn [In] in I; destruct I as [<-|[<-|[<-|[<-|[<-|[<-|[]]]]]]]; vm_compute; reflexivity|].
  split; [exact (eq_sym (f_equal fst H3))|exact (eq_sym (f_equal snd H3))].
Qed.
(** C58_example meets the hypotheses of C62_settings; a line that C62_rejected refuses: HOMO + 1 *)
Definition line_bad : list item := line2 ++ [IVal $"-orb_num_1" $"--orbital_num_1" $"1"].
Example C62_example : valid (catnip disk1) line_bad /\ (exists P, parse ($"calc_J" :: words line_bad) (catnip disk1) = Ok P) /\
  exists ty n, value_or $"--orbital_type_1" $"HOMO" line_bad ty /\ number_or $"--orbital_num_1" 0 line_bad n /\ ~ consistent ty n.
Proof.
  split; [apply validb_ok; [apply catnip_wf|vm_compute; reflexivity]|]. split.
  { assert (R : is_ok (parse ($"calc_J" :: words line_bad) (catnip disk1)) = true) by (vm_compute; reflexivity). apply is_ok_iff in R. exact R. }
  exists $"HOMO", 1. split; [right; split; [intros w I; vm_compute in I; intuition discriminate|reflexivity]|].
  split; [left; exists $"1"; split; [exists (removelast (given line_bad)), []; split; [reflexivity|intros w []]|reflexivity]|].
  intros [[_ H]|[H _]]; [lia|discriminate].
Qed.
(** the hypotheses of C58_repeated_refuted: -p_P first names an existing file, then a missing one *)
Definition line3 : list item := [IVal $"-l_P" $"--log_P" $"runs/dimer.log"] ++ line2 ++ [IVal $"-p_P" $"--pun_P" $"gone.pun"].
Example C58_repeated_example : exists P p, parse ($"calc_J" :: words line3) (catnip disk1) = Ok P /\ prepareParameters P = Ok p /\
  valid (catnip disk1) line3 /\ names p = [$"m1.log"; $"m2.log"; $"runs/dimer.log"; $"m1.pun"; $"m2.pun"; $"gone.pun"] /\ file_exists disk1 $"gone.pun" = false /\
  last_value $"--pun_P" line3 $"gone.pun" /\ In ($"--pun_P", $"runs/dimer.pun") (given line3) /\ file_exists disk1 $"runs/dimer.pun" = true.
Proof.
  assert (R : result disk1 line3 = Ok ([$"m1.log"; $"m2.log"; $"runs/dimer.log"; $"m1.pun"; $"m2.pun"; $"gone.pun"],
     ([$"Alpha"; $"Alpha"; $"Alpha"; []; $"HOMO"; $"LUMO"], [0; 0; 1], Some false, false))) by (vm_compute; reflexivity).
  apply result_inv in R as (P & p & H1 & H2 & H3). exists P, p. split; [auto|]. split; [auto|].
  split; [apply validb_ok; [apply catnip_wf|vm_compute; reflexivity]|]. split; [exact (eq_sym (f_equal fst H3))|]. split; [reflexivity|]. split; [|split; [vm_compute; auto|reflexivity]].
  exists (removelast (given line3)), []. split; [reflexivity|intros w []].
Qed.

(** ** C59 *)
(** proved: an existing .pun file is used *)
Theorem C59_pun_partial : forall E prog l P p, valid (catnip E) l -> parse (prog :: words l) (catnip E) = Ok P -> prepareParameters P = Ok p ->
  forall own partner exts ext n w, In (own, partner, exts, ext, n) (files p) -> last_value own l w -> file_exists E w = true -> n = w.
Proof. intros E prog l P p V Hp H own partner exts ext n w I Lw F. eapply C58_repeated_refuted; eauto. apply last_in; auto. Qed.
Print Assumptions C59_pun_partial.
(** refuted: an existing .orb or .7 file given for a pun flag is accepted by the parser but never reaches the parameters *)
Theorem C59_others_refuted : forall E prog l P f w, valid (catnip E) l -> parse (prog :: words l) (catnip E) = Ok P ->
  In f pun_flags -> last_value f l w -> file_exists E w = true -> ~ ends_in w $".pun" -> forall p, prepareParameters P <> Ok p.
Proof.
  intros E prog l P f w V Hp I Lw F Ne p H. apply Ne.
  assert (X : exists partner n, In (f, partner, pun_exts, $".pun", n) (files p)).
  { unfold pun_flags in I. destruct I as [<-|[<-|[<-|[]]]]; [exists $"--log_P", (punP p)|exists $"--log_1", (pun1 p)|exists $"--log_2", (pun2 p)]; unfold files; cbn [In]; tauto. }
  destruct X as (partner & n & X). rewrite <- (C59_pun_partial _ _ _ _ _ V Hp H _ _ _ _ _ _ X Lw F). eapply C58_suffixes; eauto.
Qed.
Print Assumptions C59_others_refuted.
(** ... and such lines are accepted by the parser *)
Definition line4 : list item := [IVal $"-l_P" $"--log_P" $"runs/dimer.log"; IVal $"-p_1" $"--pun_1" $"m1.7"; IVal $"-p_2" $"--pun_2" $"m2.pun"].
Example C59_example : valid (catnip disk1) line4 /\ (exists P, parse ($"calc_J" :: words line4) (catnip disk1) = Ok P) /\
  last_value $"--pun_1" line4 $"m1.7" /\ file_exists disk1 $"m1.7" = true /\ ~ ends_in $"m1.7" $".pun".
Proof.
  split; [apply validb_ok; [apply catnip_wf|vm_compute; reflexivity]|]. split.
  { assert (R : is_ok (parse ($"calc_J" :: words line4) (catnip disk1)) = true) by (vm_compute; reflexivity). apply is_ok_iff in R. exact R. }
  split; [exists [($"--log_P", $"runs/dimer.log")], [($"--pun_2", $"m2.pun")]; split; [reflexivity|]; intros w [I|[]]; discriminate|].
  split; [reflexivity|]. intros (t & H). apply (f_equal (@rev ascii)) in H. rewrite rev_app_distr in H. discriminate.
Qed.

(** ** C60 *)
(** refuted: a sister whose path contains white space is never used *)
Theorem C60_white_refuted : forall E prog l P p, valid (catnip E) l -> parse (prog :: words l) (catnip E) = Ok P -> prepareParameters P = Ok p ->
  forall own partner exts ext n q, In (own, partner, exts, ext, n) (files p) ->
    (forall w, ~ In (own, w) (given l)) -> resolves E l own partner exts q -> ~ no_white q -> n <> q.
Proof.
  intros E prog l P p V Hp H own partner exts ext n q I Nn _ Wq ->. destruct (any_all _ _ _ _ V Hp H _ _ _ _ _ I) as (sis & Pk & Sw).
  unfold picked, own_name in Pk. rewrite (proj1 (vals_none own l) Nn) in Pk. cbn [existsb orelse] in Pk.
  destruct sis as [u|]; [|discriminate]. inversion Pk; subst u. apply Wq. apply Sw; auto.
Qed.
Print Assumptions C60_white_refuted.
(** a witness: the name taken for the dimer's log file is the first word of the path of the sister, and no file has it *)
Definition disk2 : env := disk [$"x.log y/dimer.pun"; $"x.log y/dimer.log"; $"m1.pun"; $"m1.log"; $"m2.pun"; $"m2.log"].
Definition line5 : list item := [IVal $"-p_P" $"--pun_P" $"x.log y/dimer.pun"; IVal $"-p_1" $"--pun_1" $"m1.pun"; IVal $"-p_2" $"--pun_2" $"m2.pun"].
Theorem C60_witness_refuted : exists P p, valid (catnip disk2) line5 /\ parse ($"calc_J" :: words line5) (catnip disk2) = Ok P /\ prepareParameters P = Ok p /\
  resolves disk2 line5 $"--log_P" $"--pun_P" log_exts $"x.log y/dimer.log" /\ nth_error (names p) 2 = Some $"x.log" /\ file_exists disk2 $"x.log" = false.
Proof.
  assert (R : result disk2 line5 = Ok ([$"m1.log"; $"m2.log"; $"x.log"; $"m1.pun"; $"m2.pun"; $"x.log y/dimer.pun"],
     ([$"Alpha"; $"Alpha"; $"Alpha"; []; $"HOMO"; $"HOMO"], [0; 0; 0], Some false, false))) by (vm_compute; reflexivity).
  apply result_inv in R as (P & p & H1 & H2 & H3). exists P, p. split; [apply validb_ok; [apply catnip_wf|vm_compute; reflexivity]|]. split; [auto|]. split; [auto|].
  split; [|split; [exact (eq_sym (f_equal (fun r => nth_error (fst r) 2) H3))|reflexivity]].
  right. split; [intros w Lw; apply last_in in Lw; vm_compute in Lw; intuition discriminate|].
  exists $"x.log y/dimer.pun". split; [exists [], [($"--pun_1", $"m1.pun"); ($"--pun_2", $"m2.pun")]; split; [reflexivity|]; intros w [I|[I|[]]]; discriminate|].
  exists [], $".log", []. split; [reflexivity|]. split; [|split; [reflexivity|intros e' q []]].
  exists $"x.log y/", $"dimer", $".pun". split; [|reflexivity]. exists $"dimer.pun". split; [reflexivity|].
  split; [right; exists $"x.log y"; reflexivity|]. split; [intros C; vm_compute in C; intuition discriminate|].
  split; [reflexivity|]. right. exists $"pun". split; [reflexivity|intros C; vm_compute in C; intuition discriminate].
Qed.
Print Assumptions C60_witness_refuted.
(** proved: without white space in the paths the sister is found (C58_resolved_partial, C58_complete_partial); in particular *)
Theorem C60_plain_partial : forall E prog l P p, valid (catnip E) l -> parse (prog :: words l) (catnip E) = Ok P -> prepareParameters P = Ok p ->
  (forall f w, In f file_flags -> In (f, w) (given l) -> no_white w) -> (forall f, In f file_flags -> once f l) ->
  forall own partner exts ext n q, In (own, partner, exts, ext, n) (files p) ->
    (forall w, ~ In (own, w) (given l)) -> resolves E l own partner exts q -> n = q.
Proof.
  intros E prog l P p V Hp H Nw On own partner exts ext n q I Nn Rq.
  destruct (C58_resolved_partial _ _ _ _ _ V Hp Nw On H _ _ _ _ _ I) as (Rn & _). eapply C58_unique; eauto.
Qed.
Print Assumptions C60_plain_partial.
