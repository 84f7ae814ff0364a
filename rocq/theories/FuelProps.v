(** * Property C97, continued: one answer *)
From Verif Require Import FuelFacts.
From Verif Require Export ReaderModel MainSpec.
From Verif Require Export StrSpec StrModel.
Open Scope Z_scope.

(** With more steps allowed the outcome of a run is the same, once the steps suffice. *)
Theorem C97_steps : forall E N A lab disk R (finish : params -> bool -> num N -> num N -> num N -> num N -> R) fuel fuel' argv, (fuel <= fuel')%nat ->
  main_with E N A lab disk finish fuel argv <> NoFuel -> main_with E N A lab disk finish fuel' argv = main_with E N A lab disk finish fuel argv.
Proof. intros E N A lab disk R finish fuel fuel' argv L H. destruct (main_with_later E N A lab disk finish fuel fuel' argv L) as [Q|Q]; [contradiction|exact Q]. Qed.
Print Assumptions C97_steps.
(** So a run has at most one answer, whatever the number of steps it is given. *)
Theorem C97_one_answer : forall E N A lab disk R (finish : params -> bool -> num N -> num N -> num N -> num N -> R) fuel fuel' argv o o',
  main_with E N A lab disk finish fuel argv = o -> main_with E N A lab disk finish fuel' argv = o' -> o <> NoFuel -> o' <> NoFuel -> o' = o.
Proof.
  intros E N A lab disk R finish fuel fuel' argv o o' H H' Ho Ho'.
  destruct (main_with_later E N A lab disk finish fuel (fuel + fuel')%nat argv ltac:(lia)) as [Q|Q]; [congruence|].
  destruct (main_with_later E N A lab disk finish fuel' (fuel + fuel')%nat argv ltac:(lia)) as [Q'|Q']; congruence.
Qed.
Print Assumptions C97_one_answer.
Theorem C97_steps_pun : forall N disk fuel fuel' name, (fuel <= fuel')%nat -> open_pun N disk fuel name <> NoFuel -> open_pun N disk fuel' name = open_pun N disk fuel name.
Proof. intros N disk fuel fuel' name L H. destruct (open_pun_later N disk fuel fuel' name L) as [Q|Q]; [contradiction|exact Q]. Qed.
Print Assumptions C97_steps_pun.
Theorem C97_steps_log : forall N disk fuel fuel' name, (fuel <= fuel')%nat -> open_log N disk fuel name <> NoFuel -> open_log N disk fuel' name = open_log N disk fuel name.
Proof. intros N disk fuel fuel' name L H. destruct (open_log_later N disk fuel fuel' name L) as [Q|Q]; [contradiction|exact Q]. Qed.
Print Assumptions C97_steps_log.
