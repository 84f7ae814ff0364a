(** * Property C91: reading again after a failed read *)
From Verif Require Import ParserWf.
From Verif Require Export ReaderRetryModel ReaderAgainProps ReaderOverlapCut.
From Verif Require Export StrSpec StrModel.
Import ReaderExample.
Open Scope Z_scope.

(** what the getters of two objects return is the same *)
Definition same_log N (r r' : LogReader N) : Prop :=
  getCoords N r' = getCoords N r /\ (forall spin, getOE N r' spin = getOE N r spin /\ getHOMOLevel N r' spin = getHOMOLevel N r spin) /\
  getOverlapMatrix N r' = getOverlapMatrix N r /\ getBasisFuncCount N r' = getBasisFuncCount N r /\ getOrbitalInfo N r' = getOrbitalInfo N r.
Definition same_pun N (r r' : PunReader N) : Prop :=
  (forall spin, getCoefsMatrix N r' spin = getCoefsMatrix N r spin) /\ restrictedShell N r' = restrictedShell N r.

Lemma loop_failed {M} headers (rd : nat -> str -> fstate -> M -> outcome (fstate * M)) fuel f line m : s_fail (fid f) = true ->
  read_loop headers rd (S fuel) f line m = Ok (mkF (set_fail (fid f)) (pos_ f), m).
Proof. intros H. cbn [read_loop]. unfold getl, s_getline, s_good. rewrite H, andb_false_r. cbn [negb fid set_fail s_fail]. reflexivity. Qed.
(** a call on an object whose handle is open reads nothing *)
Lemma call_open {M} files headers (rd : nat -> str -> fstate -> M -> outcome (fstate * M)) fuel (R : held M) s content : h_open R = Some s -> files (h_name R) = Some content ->
  (forall o R', read_call files headers rd fuel R o R' -> o = Ok tt /\ h_name R' = h_name R /\ h_data R' = h_data R /\ h_open R' = None) /\
  ((1 <= fuel)%nat -> exists R', read_call files headers rd fuel R (Ok tt) R').
Proof.
  intros Ho Hf. split.
  - intros o R' H. destruct H as [H|content' f m Hc H|content' e s' pos m Hc H]; [congruence| |]; rewrite Ho in H; cbn [opened] in H; (destruct fuel as [|fuel]; [discriminate|]); rewrite loop_failed in H by reflexivity; [|discriminate].
    injection H as <- <-. auto.
  - intros Hu. destruct fuel as [|fuel]; [lia|]. eexists. eapply rc_done; [exact Hf|]. rewrite Ho. apply loop_failed. reflexivity.
Qed.
Lemma call_throws {M} files headers (rd : nat -> str -> fstate -> M -> outcome (fstate * M)) fuel (R : held M) e R' : files (h_name R) <> None ->
  read_call files headers rd fuel R (Throw e) R' -> h_name R' = h_name R /\ exists s, h_open R' = Some s.
Proof. intros Hf H. inversion H; subst; [congruence|]. cbn [h_name h_open]. eauto. Qed.
Lemma call_closed {M} files headers (rd : nat -> str -> fstate -> M -> outcome (fstate * M)) fuel (R : held M) p m : h_open R = None ->
  read files headers rd fuel (h_name R) (h_pos R) (h_data R) = Ok (p, m) -> read_call files headers rd fuel R (Ok tt) (mkHeld (h_name R) p m None).
Proof.
  intros Ho H. unfold read in H. destruct (files (h_name R)) as [content|] eqn:Hf; [|discriminate]. apply bind_ok in H as ((f & m') & E & H). injection H as <- <-.
  eapply rc_done; [exact Hf|]. rewrite Ho. exact E.
Qed.
Lemma call_closed_inv {M} files headers (rd : nat -> str -> fstate -> M -> outcome (fstate * M)) fuel (R : held M) o R' : h_open R = None -> read_call files headers rd fuel R o R' ->
  match o with
  | Ok _ => read files headers rd fuel (h_name R) (h_pos R) (h_data R) = Ok (h_pos R', h_data R') /\ h_open R' = None /\ h_name R' = h_name R
  | Throw e => read files headers rd fuel (h_name R) (h_pos R) (h_data R) = Throw e
  | _ => False end.
Proof.
  intros Ho H. destruct H as [H|content f m Hc H|content e s pos m Hc H]; unfold read.
  - rewrite H. reflexivity.
  - rewrite Hc. rewrite Ho in H. cbn [opened] in H. rewrite H. auto.
  - rewrite Hc. rewrite Ho in H. cbn [opened] in H. rewrite H. auto.
Qed.
Lemma same_log_data N (R R' : held (logd N)) : h_data R' = h_data R -> same_log N (log_object N R) (log_object N R').
Proof. intros H. unfold same_log, getCoords, getOE, getHOMOLevel, getOverlapMatrix, getBasisFuncCount, getOrbitalInfo, log_object. cbn [lr_data]. rewrite H. auto. Qed.
Lemma same_pun_data N (R R' : held (smap (mat (num N)))) : h_data R' = h_data R -> same_pun N (pun_object N R) (pun_object N R').
Proof. intros H. unfold same_pun, getCoefsMatrix, restrictedShell, pun_object. cbn [coefs]. rewrite H. auto. Qed.

(** ** C91 *)
(** calls on objects that no exception has left behave like [log_read] and [pun_read] *)
Theorem C91_fresh : forall N files fuel,
  (forall (r : LogReader N) o R', log_call N files fuel (log_held N r) o R' ->
     match o with Ok _ => log_read N files fuel r = Ok (log_object N R') /\ R' = log_held N (log_object N R') | Throw e => log_read N files fuel r = Throw e | _ => False end) /\
  (forall (r : PunReader N) o R', pun_call N files fuel (pun_held N r) o R' ->
     match o with Ok _ => pun_read N files fuel r = Ok (pun_object N R') /\ R' = pun_held N (pun_object N R') | Throw e => pun_read N files fuel r = Throw e | _ => False end).
Proof.
  intros N files fuel. split; intros r o R' H; apply call_closed_inv in H; try reflexivity; destruct o as [u|e| | |]; try contradiction.
  - destruct H as (H & Ho & Hn). unfold log_read. cbn [log_held h_name h_pos h_data] in *. rewrite H. cbn [bind fst snd]. unfold log_object, log_held. cbn [lr_name lr_pos lr_data].
    rewrite Hn. split; [reflexivity|]. destruct R' as [n p d h]. cbn [h_name h_pos h_data h_open] in *. congruence.
  - unfold log_read. cbn [log_held h_name h_pos h_data] in *. rewrite H. reflexivity.
  - destruct H as (H & Ho & Hn). unfold pun_read. cbn [pun_held h_name h_pos h_data] in *. rewrite H. cbn [bind fst snd]. unfold pun_object, pun_held. cbn [pr_name pr_pos coefs].
    rewrite Hn. split; [reflexivity|]. destruct R' as [n p d h]. cbn [h_name h_pos h_data h_open] in *. congruence.
  - unfold pun_read. cbn [pun_held h_name h_pos h_data] in *. rewrite H. reflexivity.
Qed.
Print Assumptions C91_fresh.
(** full property: after read() has failed, calling it again returns what the file contains then.
    Refuted: the call after an exception inside an existing file returns normally and changes nothing, whatever the file contains now *)
Theorem C91_second_refuted : forall N files1 fuel1 files2 fuel2 e content,
  (forall R0 R1, log_call N files1 fuel1 R0 (Throw e) R1 -> files1 (h_name R0) <> None -> files2 (h_name R0) = Some content ->
     (forall o R2, log_call N files2 fuel2 R1 o R2 -> o = Ok tt /\ same_log N (log_object N R1) (log_object N R2)) /\
     ((1 <= fuel2)%nat -> exists R2, log_call N files2 fuel2 R1 (Ok tt) R2)) /\
  (forall R0 R1, pun_call N files1 fuel1 R0 (Throw e) R1 -> files1 (h_name R0) <> None -> files2 (h_name R0) = Some content ->
     (forall o R2, pun_call N files2 fuel2 R1 o R2 -> o = Ok tt /\ same_pun N (pun_object N R1) (pun_object N R2)) /\
     ((1 <= fuel2)%nat -> exists R2, pun_call N files2 fuel2 R1 (Ok tt) R2)).
Proof.
  intros N files1 fuel1 files2 fuel2 e content. split; intros R0 R1 H1 F1 F2; destruct (call_throws _ _ _ _ _ _ _ F1 H1) as (En & s & Es); rewrite <- En in F2.
  - destruct (call_open files2 log_headers (log_section N) fuel2 R1 s content Es F2) as [A B]. split; [|exact B]. intros o R2 H. destruct (A o R2 H) as (-> & _ & D & _). split; [reflexivity|]. apply same_log_data. exact D.
  - destruct (call_open files2 pun_headers (pun_section N) fuel2 R1 s content Es F2) as [A B]. split; [|exact B]. intros o R2 H. destruct (A o R2 H) as (-> & _ & D & _). split; [reflexivity|]. apply same_pun_data. exact D.
Qed.
Print Assumptions C91_second_refuted.
(** proved: a read that failed because the file did not exist leaves the object as it was *)
Theorem C91_missing_partial : forall N files fuel,
  (forall R o R', log_call N files fuel R o R' -> files (h_name R) = None -> o = Throw InvalidArgument /\ R' = R) /\
  (forall R o R', pun_call N files fuel R o R' -> files (h_name R) = None -> o = Throw InvalidArgument /\ R' = R).
Proof. intros N files fuel. split; intros R o R' H F; inversion H; subst; try congruence; auto. Qed.
Print Assumptions C91_missing_partial.
(** proved: the second call after the exception reads the file: for a correct file that does not begin with energies the getters
    return the last section of each kind *)
Theorem C91_third_partial : forall N files1 fuel1 files2 fuel2 e R0 R1 R2 files items content,
  log_call N files1 fuel1 R0 (Throw e) R1 -> files1 (h_name R0) <> None -> log_call N files2 fuel2 R1 (Ok tt) R2 ->
  files (h_name R0) = Some content -> log_file N items content -> other_first items ->
  exists bound, forall fuel, (bound <= fuel)%nat -> exists R3, log_call N files fuel R2 (Ok tt) R3 /\
    (forall beta ls values, last_item N (is_eigenvalues N beta) items (Eigenvalues N beta ls values) ->
       getOE N (log_object N R3) (spin_name beta) = Ok (concat (map snd values)) /\
       getHOMOLevel N (log_object N R3) (spin_name beta) = Ok (Z.of_nat (length (concat (map snd (filter fst values)))))) /\
    (forall h a b rows e points, last_item N (is_coordinates N) items (Coordinates N h a b rows e points) ->
       getCoords N (log_object N R3) = [map (fun p => fst (fst p)) points; map (fun p => snd (fst p)) points; map snd points]) /\
    (forall h ls after n v, last_item N (is_overlaps N) items (Overlaps N h ls after n v) ->
       exists m, getOverlapMatrix N (log_object N R3) = Ok m /\ denotes m n n 1 (fun i j _ => v (Z.max i j) (Z.min i j))).
Proof.
  intros N files1 fuel1 files2 fuel2 e R0 R1 R2 files items content H1 F1 H2 Hf Hl Ho.
  destruct (call_throws _ _ _ _ _ _ _ F1 H1) as (En & s & Es).
  destruct (files2 (h_name R1)) as [content2|] eqn:F2; [|inversion H2; subst; congruence].
  destruct (call_open files2 log_headers (log_section N) fuel2 R1 s content2 Es F2) as [A _]. destruct (A _ _ H2) as (_ & En2 & _ & Oc).
  exists (length content + 2)%nat. intros fuel Hfuel. rewrite <- En, <- En2 in Hf.
  destruct (read_file_at N files (h_name R2) (h_pos R2) items content fuel (h_data R2) Hf Hl Hfuel (or_intror Ho)) as (p & d' & E & Ef).
  exists (mkHeld (h_name R2) p d' None). split; [apply call_closed; auto|].
  unfold log_object, getOE, getHOMOLevel, getCoords, getOverlapMatrix. cbn [h_name h_pos h_data lr_data].
  split.
  { intros beta ls values (a & b & Ei & _ & Hb). rewrite Ei in Ef. apply effects_app in Ef as (d1 & E1 & E2). inversion E2 as [|? ? ? d2 ? Ef E3]; subst.
    cbn [effect] in Ef. subst d2. destruct (keeps_OE N beta b _ _ E3 Hb) as [-> ->]. cbn [OREnergies homoLevel]. rewrite !find_set_eq. auto. }
  split.
  { intros h a b rows e0 points (u & w & Ei & _ & Hb). rewrite Ei in Ef. apply effects_app in Ef as (d1 & E1 & E2). inversion E2 as [|? ? ? d2 ? Ef E3]; subst.
    cbn [effect] in Ef. subst d2. rewrite (keeps_xyz N w _ _ E3 Hb). reflexivity. }
  intros h ls after n v (a & b & Ei & _ & Hb). rewrite Ei in Ef. apply effects_app in Ef as (d1 & E1 & E2). inversion E2 as [|? ? ? d2 ? Ef E3]; subst.
  cbn [effect] in Ef. destruct Ef as (m & Dm & ->). exists m. split; [|auto]. rewrite (keeps_S N b _ _ E3 Hb). reflexivity.
Qed.
Print Assumptions C91_third_partial.
Theorem C91_third_pun_partial : forall N files1 fuel1 files2 fuel2 e R0 R1 R2 files items content,
  pun_call N files1 fuel1 R0 (Throw e) R1 -> files1 (h_name R0) <> None -> pun_call N files2 fuel2 R1 (Ok tt) R2 ->
  files (h_name R0) = Some content -> pun_file N items content ->
  exists bound, forall fuel, (bound <= fuel)%nat -> exists R3, pun_call N files fuel R2 (Ok tt) R3 /\
    (forall k rows, last_coefs N k items rows -> exists m, getCoefsMatrix N (pun_object N R3) (pspin k) = Ok m /\
       denotes m (Z.of_nat (length rows)) (Z.of_nat (length (hd [] rows))) 1 (fun i j _ => nth (Z.to_nat (j - 1)) (nth (Z.to_nat (i - 1)) rows []) (n_zero N))).
Proof.
  intros N files1 fuel1 files2 fuel2 e R0 R1 R2 files items content H1 F1 H2 Hf Hl.
  destruct (call_throws _ _ _ _ _ _ _ F1 H1) as (En & s & Es).
  destruct (files2 (h_name R1)) as [content2|] eqn:F2; [|inversion H2; subst; congruence].
  destruct (call_open files2 pun_headers (pun_section N) fuel2 R1 s content2 Es F2) as [A _]. destruct (A _ _ H2) as (_ & En2 & _ & Oc).
  rewrite <- En, <- En2 in Hf.
  destruct (pun_again N (h_name R2) [files] [items]) as (bound & B); [constructor; [eauto|constructor]|]. exists bound. intros fuel Hfuel.
  destruct (B fuel Hfuel (pun_object N R2) eq_refl) as (r' & Er & Ee). cbn [concat pun_reads] in Er, Ee. rewrite app_nil_r in Ee.
  apply bind_ok in Er as (r1 & Er & X). injection X as ->. unfold pun_read, pun_object in Er. cbn [pr_name pr_pos coefs] in Er.
  apply bind_ok in Er as ((p & c) & Er & X). injection X as <-. cbn [fst snd coefs pun_object] in Ee.
  exists (mkHeld (h_name R2) p c None). split; [apply call_closed; auto|].
  intros k rows (a & b & h & ls & after & Ei & Hb). rewrite Ei in Ee. apply peffects_app in Ee as (c1 & E1 & E2). inversion E2 as [|? ? ? c2 ? Ef E3]; subst.
  cbn [peffect] in Ef. destruct Ef as (m & Dm & ->). exists m. split; [|exact Dm]. unfold getCoefsMatrix, pun_object. cbn [coefs h_data]. rewrite (pkeeps N k b _ _ E3 Hb), find_set_eq. reflexivity.
Qed.
Print Assumptions C91_third_pun_partial.
(** a log file that ends after the header of the overlap matrix, then the complete file, read three times *)
Example C91_example : exists r R1, LogReader_new D $"runs/dimer.log" = Ok r /\
  let cut := fun _ : str => Some (text [$" *** Overlap ***"]) in let whole := fun _ : str => Some ex_log in
  log_call D cut 10 (log_held D r) (Throw InvalidArgument) R1 /\ cut (lr_name D r) <> None /\
  getCoords D (log_object D R1) = [] /\ (exists R2, log_call D whole 10 R1 (Ok tt) R2 /\ getCoords D (log_object D R2) = []) /\ log_file D ex_items ex_log /\ other_first ex_items /\
  last_item D (is_coordinates D) ex_items ex_coord.
Proof.
  destruct C87_example as (r & Er & _ & _ & Ho & Hl & _). clear r Er.
  eexists. exists (mkHeld $"runs/dimer.log" (Some O) (mkLog D [] [] None [] []) (Some (mkStream [] 0 false false))). split; [reflexivity|]. cbv zeta.
  split; [eapply rc_thrown; [reflexivity|vm_compute; reflexivity]|]. split; [discriminate|]. split; [reflexivity|].
  split; [|split; [exact ex_log_ok|auto]].
  eexists. split; [eapply rc_done; [reflexivity|apply loop_failed; reflexivity]|reflexivity].
Qed.
