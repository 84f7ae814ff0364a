(** * Property C94: sections that do not occur in a file *)
From Verif Require Import QcOrder QcFinal QcProps MatrixProps.
From Verif Require Import ParserWf ParserCheck CatnipProps ReaderProps ReaderPunProps ReaderMissing.
From Verif Require Import MainRun MainExample.
Import ReaderExample.
From Verif Require Export StrSpec StrModel.
Open Scope Z_scope.

Lemma log_new_inv N name r : LogReader_new N name = Ok r -> r = mkLogReader N name (Some O) (mkLog N [] [] None [] []).
Proof. unfold LogReader_new. intros H. apply bind_ok in H as (ext & _ & H). destruct (negb _); [discriminate|]. apply bind_ok in H as (? & _ & H). congruence. Qed.
Lemma pun_new_inv N name r : PunReader_new N name = Ok r -> r = mkPunReader N name (Some O) [].
Proof. unfold PunReader_new. intros H. apply bind_ok in H as (ext & _ & H). destruct (negb _); [discriminate|]. apply bind_ok in H as (? & _ & H). congruence. Qed.

(** Whatever a reader holds: reading a file in which a section does not occur, if it
    succeeds, leaves the answers about that section as they were. *)
Theorem C94_kept : forall N files fuel k (r r' : LogReader N) t, files (lr_name N r) = Some t -> absent k t ->
  log_read N files fuel r = Ok r' -> same_answers N k r r'.
Proof.
  intros N files fuel k r r' t Hf Ab H. pose proof (read_kept N k files r fuel r' t Hf Ab H) as K. destruct k; cbn [kept same_answers] in *; unfold getBasisFuncCount, getOrbitalInfo, getCoords, getOE, getHOMOLevel, getOverlapMatrix.
  - rewrite K. auto.
  - exact K.
  - destruct K as [-> ->]. auto.
  - destruct K as [-> ->]. auto.
  - rewrite K. reflexivity.
Qed.
Print Assumptions C94_kept.
Theorem C94_kept_pun : forall N files fuel (beta : bool) (r r' : PunReader N) t, files (pr_name N r) = Some t -> ~ occurs (pun_mark beta) t ->
  pun_read N files fuel r = Ok r' -> getCoefsMatrix N r' (spin_name beta) = getCoefsMatrix N r (spin_name beta).
Proof. intros. eapply pun_read_kept; eauto. Qed.
Print Assumptions C94_kept_pun.

(** A new reader: the accessors say that the section is missing, by an exception or an
    empty result.  Partial: not for the overlap matrix, next theorem. *)
Theorem C94_fresh_partial : forall N files fuel k name (r r' : LogReader N) t, LogReader_new N name = Ok r -> files name = Some t -> absent k t ->
  log_read N files fuel r = Ok r' -> k <> KOverlap -> says_missing N k r'.
Proof.
  intros N files fuel k name r r' t Hn Hf Ab H Hk. pose proof (log_new_inv N name r Hn) as ->.
  pose proof (C94_kept N files fuel k (mkLogReader N name (Some O) (mkLog N [] [] None [] [])) r' t Hf Ab H) as K. destruct k; cbn [same_answers says_missing] in *; try exact K. congruence.
Qed.
Print Assumptions C94_fresh_partial.
(** What is wanted of the overlap matrix, [says_missing N KOverlap r'], never holds: the pointer that is returned was never set. *)
Theorem C94_overlap_refuted : forall N files fuel name (r r' : LogReader N) t, LogReader_new N name = Ok r -> files name = Some t -> absent KOverlap t ->
  log_read N files fuel r = Ok r' -> getOverlapMatrix N r' = Undef Uninitialised /\ ~ says_missing N KOverlap r'.
Proof.
  intros N files fuel name r r' t Hn Hf Ab H. pose proof (log_new_inv N name r Hn) as ->.
  pose proof (C94_kept N files fuel KOverlap (mkLogReader N name (Some O) (mkLog N [] [] None [] [])) r' t Hf Ab H) as K. cbn [same_answers says_missing] in *. 
  assert (E : getOverlapMatrix N r' = Undef Uninitialised) by exact K. split; [exact E|]. intros [e X]. congruence.
Qed.
Print Assumptions C94_overlap_refuted.
Theorem C94_fresh_pun : forall N files fuel (beta : bool) name (r r' : PunReader N) t, PunReader_new N name = Ok r -> files name = Some t -> ~ occurs (pun_mark beta) t ->
  pun_read N files fuel r = Ok r' -> getCoefsMatrix N r' (spin_name beta) = Throw InvalidArgument.
Proof.
  intros N files fuel beta name r r' t Hn Hf Ab H. pose proof (pun_new_inv N name r Hn) as ->.
  rewrite (C94_kept_pun N files fuel beta (mkPunReader N name (Some O) []) r' t Hf Ab H). destruct beta; reflexivity.
Qed.
Print Assumptions C94_fresh_pun.

(** ** calc_J

    One of the six files lacks a section that the calculation needs. *)
Definition lacking (disk : str -> option str) (p : params) : Prop := exists name t, disk name = Some t /\
  (In name [log1 p; log2 p; logP p] /\ absent KCoordinates t \/
   name = logP p /\ absent KOverlap t \/
   exists beta : bool,
     In (name, spin_name beta) [(log1 p, spin1 p); (log2 p, spin2 p); (logP p, spinP p)] /\ absent (energies_of beta) t \/
     In (name, spin_name beta) [(pun1 p, spin1 p); (pun2 p, spin2 p); (punP p, spinP p)] /\ ~ occurs (pun_mark beta) t).

Lemma opened_energies N files fuel (beta : bool) name r t : open_log N files fuel name = Ok r -> files name = Some t -> absent (energies_of beta) t ->
  getOE N r (spin_name beta) = Throw OutOfRange /\ getHOMOLevel N r (spin_name beta) = Throw OutOfRange.
Proof.
  unfold open_log. intros H Hf Ab. apply bind_ok in H as (r0 & H0 & H). pose proof (C94_fresh_partial N files fuel (energies_of beta) name r0 r t H0 Hf Ab H) as K.
  destruct beta; apply K; discriminate.
Qed.
Lemma opened_coords N files fuel name r t : open_log N files fuel name = Ok r -> files name = Some t -> absent KCoordinates t -> getCoords N r = [].
Proof. unfold open_log. intros H Hf Ab. apply bind_ok in H as (r0 & H0 & H). apply (C94_fresh_partial N files fuel KCoordinates name r0 r t H0 Hf Ab H). discriminate. Qed.
Lemma opened_coefs N files fuel (beta : bool) name r t : open_pun N files fuel name = Ok r -> files name = Some t -> ~ occurs (pun_mark beta) t -> getCoefsMatrix N r (spin_name beta) = Throw InvalidArgument.
Proof. unfold open_pun. intros H Hf Ab. apply bind_ok in H as (r0 & H0 & H). exact (C94_fresh_pun N files fuel beta name r0 r t H0 Hf Ab H). Qed.
Lemma opened_overlap N files fuel name r t : open_log N files fuel name = Ok r -> files name = Some t -> absent KOverlap t -> getOverlapMatrix N r = Undef Uninitialised.
Proof. unfold open_log. intros H Hf Ab. apply bind_ok in H as (r0 & H0 & H). apply (C94_overlap_refuted N files fuel name r0 r t H0 Hf Ab H). Qed.
Lemma lacking_none : forall E N A lab disk X (finish : params -> bool -> num N -> num N -> num N -> num N -> X) fuel argv P p J,
  parse argv (catnip E) = Ok P -> prepareParameters P = Ok p -> lacking disk p -> main_with E N A lab disk finish fuel argv <> Ok J.
Proof.
  intros E N A lab disk X finish fuel argv P p J HP Hp L H.
  rewrite (main_params E N A lab disk finish fuel argv P p HP Hp) in H.
  unfold run_job_with in H. apply bind_ok in H as (prP & X1 & H). apply bind_ok in H as (pr1 & X2 & H). apply bind_ok in H as (pr2 & X3 & H).
  apply bind_ok in H as (lrP & X4 & H). apply bind_ok in H as (lr1 & X5 & H). apply bind_ok in H as (lr2 & X6 & H). unfold compute_with in H.
  apply bind_ok in H as (mS & Y1 & H). apply bind_ok in H as (mP & Y2 & H). apply bind_ok in H as (eP & Y3 & H). apply bind_ok in H as (? & _ & H).
  apply bind_ok in H as (h1 & Y4 & H). apply bind_ok in H as (m1 & Y5 & H). apply bind_ok in H as (e1 & Y6 & H). apply bind_ok in H as (? & _ & H).
  apply bind_ok in H as (h2 & Y7 & H). apply bind_ok in H as (m2 & Y8 & H). apply bind_ok in H as (e2 & Y9 & H). apply bind_ok in H as (? & _ & H).
  apply bind_ok in H as (? & Z1 & H). apply bind_ok in H as (? & Z2 & H). apply bind_ok in H as (? & Z3 & H). clear H.
  destruct L as (name & t & Hd & [[I Ab]|[[-> Ab]|(beta & [[I Ab]|[I Ab]])]]).
  - destruct I as [<-|[<-|[<-|[]]]]; [rewrite (opened_coords N disk fuel _ _ t X5 Hd Ab) in Z2|rewrite (opened_coords N disk fuel _ _ t X6 Hd Ab) in Z3|rewrite (opened_coords N disk fuel _ _ t X4 Hd Ab) in Z1]; discriminate.
  - rewrite (opened_overlap N disk fuel _ _ t X4 Hd Ab) in Y1. discriminate.
  - destruct I as [I|[I|[I|[]]]]; pose proof (f_equal fst I) as En; pose proof (f_equal snd I) as Es; cbn [fst snd] in En, Es; rewrite <- En in Hd; rewrite Es in *.
    + destruct (opened_energies N disk fuel beta _ _ t X5 Hd Ab) as [Q _]. rewrite Q in Y6. discriminate.
    + destruct (opened_energies N disk fuel beta _ _ t X6 Hd Ab) as [Q _]. rewrite Q in Y9. discriminate.
    + destruct (opened_energies N disk fuel beta _ _ t X4 Hd Ab) as [Q _]. rewrite Q in Y3. discriminate.
  - destruct I as [I|[I|[I|[]]]]; pose proof (f_equal fst I) as En; pose proof (f_equal snd I) as Es; cbn [fst snd] in En, Es; rewrite <- En in Hd; rewrite Es in *.
    + pose proof (opened_coefs N disk fuel beta _ _ t X2 Hd Ab) as Q. rewrite Q in Y5. discriminate.
    + pose proof (opened_coefs N disk fuel beta _ _ t X3 Hd Ab) as Q. rewrite Q in Y8. discriminate.
    + pose proof (opened_coefs N disk fuel beta _ _ t X1 Hd Ab) as Q. rewrite Q in Y2. discriminate.
Qed.
(** Neither a value nor a report is produced: whatever the other files contain. *)
Theorem C94_program : forall E N A lab disk fuel argv P p, parse argv (catnip E) = Ok P -> prepareParameters P = Ok p -> lacking disk p ->
  (forall J, main E N A lab disk fuel argv <> Ok J) /\ (forall pr h version out, main_output N A pr h version E lab disk fuel argv <> Ok out).
Proof. intros E N A lab disk fuel argv P p HP Hp L. split; [intros J|intros pr h version out]; [exact (lacking_none E N A lab disk _ (J_of_run A) fuel argv P p J HP Hp L)|exact (lacking_none E N A lab disk _ (lines_of_run N A pr h version) fuel argv P p out HP Hp L)]. Qed.
Print Assumptions C94_program.
(** With all six files read, the program does not throw when the dimer has no overlap matrix: it goes on with a pointer that was never set. *)
Theorem C94_program_overlap_refuted : forall E N A lab disk fuel argv P p t, parse argv (catnip E) = Ok P -> prepareParameters P = Ok p ->
  disk (logP p) = Some t -> absent KOverlap t ->
  (forall name, In name [punP p; pun1 p; pun2 p] -> exists r, open_pun N disk fuel name = Ok r) ->
  (forall name, In name [logP p; log1 p; log2 p] -> exists r, open_log N disk fuel name = Ok r) ->
  main E N A lab disk fuel argv = Undef Uninitialised.
Proof.
  intros E N A lab disk fuel argv P p t HP Hp Hd Ab Hpun Hlog. unfold main.
  rewrite (main_params E N A lab disk (J_of_run A) fuel argv P p HP Hp). unfold run_job_with.
  destruct (Hpun (punP p)) as (? & ->); [cbn; auto|]. destruct (Hpun (pun1 p)) as (? & ->); [cbn; auto|]. destruct (Hpun (pun2 p)) as (? & ->); [cbn; auto|].
  destruct (Hlog (logP p)) as (lrP & Hl); [cbn; auto|]. rewrite Hl. destruct (Hlog (log1 p)) as (? & ->); [cbn; auto|]. destruct (Hlog (log2 p)) as (? & ->); [cbn; auto|].
  cbn [bind]. unfold compute_with. rewrite (opened_overlap N disk fuel _ _ t Hl Hd Ab). reflexivity.
Qed.
Print Assumptions C94_program_overlap_refuted.

(** ** Concrete runs: the files of MainExample.v, one of them cut down *)
Definition without (name : str) (content : str) (n : str) : option str := if str_eqb n name then Some content else the_disk n.
Definition no_overlap : str := file_of (bare_items carbon_1 pt1).
Definition no_coords : str := file_of [Other D $" Entering Gaussian System"; energies_item occ_line virt_line [$"-0.50000"] [$"0.10000"]; Other D $" Mulliken"].
Definition no_energies : str := file_of [Other D $" Entering Gaussian System"; coords [carbon_1] [pt1]].
Lemma absent_b k t : forallb (fun p => negb (foundSubStrInStr t p)) (marks k) = true -> absent k t.
Proof. intros H p I. apply not_occurs_b. rewrite forallb_forall in H. apply negb_true_iff, H, I. Qed.
Example C94_example :
  absent KOverlap no_overlap /\ absent KCoordinates no_coords /\ absent KAlpha no_energies /\ absent KBeta no_overlap /\ ~ absent KAlpha no_overlap /\
  the_result (without $"runs/dimer.log" no_overlap) the_line = Undef Uninitialised /\
  the_result (without $"m1.log" no_coords) the_line = Throw OutOfRange /\
  the_result (without $"m2.log" no_energies) the_line = Throw OutOfRange /\
  the_result (without $"m2.pun" $"nothing") the_line = Throw InvalidArgument.
Proof.
  split; [apply absent_b; vm_compute; reflexivity|]. split; [apply absent_b; vm_compute; reflexivity|]. split; [apply absent_b; vm_compute; reflexivity|]. split; [apply absent_b; vm_compute; reflexivity|].
  split; [|vm_compute; repeat split]. intros H. apply (H $" Alpha  occ. eigenvalues --"); [left; reflexivity|]. apply occurs_b. vm_compute. reflexivity.
Qed.
Example C94_lacking_example : lacking (without $"m1.log" no_coords) (the_params false) /\ lacking (without $"m2.pun" $"nothing") (the_params false).
Proof.
  split.
  - exists $"m1.log", no_coords. split; [reflexivity|]. left. split; [left; reflexivity|apply absent_b; vm_compute; reflexivity].
  - exists $"m2.pun", $"nothing". split; [reflexivity|]. right; right. exists false. right. split; [right; left; reflexivity|apply not_occurs_b; vm_compute; reflexivity].
Qed.
