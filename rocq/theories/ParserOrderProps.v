(** * Property C100: the order of the items of a command line *)
From Coq Require Import Permutation.
From Verif Require Import ParserRun ParserProps CatnipProps MainExample MainProps.
From Verif Require Export ParserOrder.
Import ReaderExample.
From Verif Require Export StrSpec StrModel.
Open Scope Z_scope.

(** lines that say the same about every flag leave the same parser (or the same exception) *)
Theorem C100_interleaved : forall E (P : parser E) prog prog' l l', regular P -> valid P l -> valid P l' -> ~ all_notes (words l) -> same_said l l' ->
  parse (prog :: words l) P = parse (prog' :: words l') P.
Proof.
  intros E P prog prog' l l' R0 V V' N H. pose proof (regular_reg _ R0) as R.
  assert (N' : ~ all_notes (words l')). { rewrite (notes_silent P l' V'). rewrite (notes_silent P l V) in N. intros E0. apply N. apply (effects_nil l' l); auto. intros f. symmetry. apply H. }
  destruct (parse_valid P prog l R V N) as (P1 & R1 & _ & _ & ->). destruct (parse_valid P prog' l' R V' N') as (P2 & R2 & _ & _ & ->).
  rewrite (run_order P l l' P1 P2 R H R1 R2). reflexivity.
Qed.
Print Assumptions C100_interleaved.
(** the items of a line without informational words in which no flag is given twice may be written in any order *)
Theorem C100_any_order : forall E (P : parser E) prog l l', regular P -> valid P l -> l <> [] -> Forall (fun i => is_note i = false) l -> all_once l -> Permutation l l' ->
  valid P l' /\ parse (prog :: words l) P = parse (prog :: words l') P.
Proof.
  intros E P prog l l' R V N F O Pm. pose proof (valid_perm P l l' Pm F V) as V'. split; [exact V'|].
  apply C100_interleaved; auto; [|apply said_perm; auto]. rewrite (notes_silent P l V). destruct l as [|i l]; [congruence|]. inversion F as [|? ? Hi _]; subst. destruct i; discriminate.
Qed.
Print Assumptions C100_any_order.
Lemma same_main E N A lab disk X (finish : params -> bool -> num N -> num N -> num N -> num N -> X) fuel a b : parse a (catnip E) = parse b (catnip E) ->
  main_with E N A lab disk finish fuel a = main_with E N A lab disk finish fuel b.
Proof. intros H. unfold main_with. pose proof (catnip_ok (E := E)) as Ck. revert Ck H. generalize (prepareParser E), (catnip E). intros Q C -> H. cbn [bind]. rewrite H. reflexivity. Qed.
(** calc_J: the same value and the same output, bit for bit *)
Theorem C100_program : forall E N A lab disk fuel prog prog' l l', valid (catnip E) l -> valid (catnip E) l' -> ~ all_notes (words l) -> same_said l l' ->
  main E N A lab disk fuel (prog :: words l) = main E N A lab disk fuel (prog' :: words l') /\
  forall pr h version, main_output N A pr h version E lab disk fuel (prog :: words l) = main_output N A pr h version E lab disk fuel (prog' :: words l').
Proof.
  intros E N A lab disk fuel prog prog' l l' V V' Nn H. pose proof (C100_interleaved E (catnip E) prog prog' l l' catnip_regular V V' Nn H) as Q.
  split; [exact (same_main E N A lab disk _ _ fuel _ _ Q)|]. intros pr h version. exact (same_main E N A lab disk _ _ fuel _ _ Q).
Qed.
Print Assumptions C100_program.

(** concrete lines: the items of a run in the opposite order, and the values of a flag given twice mixed with others *)
Definition twice_a : list ParserSpec.item := ISw $"-cp" $"--counter_poise" :: IVal $"-s_1" $"--spin_1" $"Beta" :: the_line ++ [IVal $"--spin_1" $"--spin_1" $"Alpha"].
Definition twice_b : list ParserSpec.item := IVal $"--spin_1" $"--spin_1" $"Beta" :: IVal $"-s_1" $"--spin_1" $"Alpha" :: rev the_line ++ [ISw $"--counter_poise" $"--counter_poise"].
Fixpoint said_b (l l' : list ParserSpec.item) (fs : list str) : bool := match fs with [] => true | f :: t =>
  (length (said f l) =? length (said f l'))%nat && forallb (fun q => match q with (Some a, Some b) => str_eqb a b | (None, None) => true | _ => false end) (combine (said f l) (said f l')) && said_b l l' t end.
Lemma said_out f l : ~ In f (concat (map flag_of l)) -> said f l = [].
Proof.
  induction l as [|i l IH]; intros N; [reflexivity|]. unfold said. cbn [map concat] in *. rewrite in_app_iff in N. change (item_says f i ++ said f l = []). rewrite IH by tauto. rewrite app_nil_r.
  destruct i as [x g w|x g|x]; cbn [item_says flag_of In] in *; try reflexivity; destruct (str_eqb g f) eqn:G; try reflexivity; apply str_eqb_eq in G; tauto.
Qed.
Lemma said_ok l l' fs : (forall f, In f (concat (map flag_of l)) \/ In f (concat (map flag_of l')) -> In f fs) -> said_b l l' fs = true -> same_said l l'.
Proof.
  intros Hf H f. assert (K : In f fs \/ ~ In f fs) by (destruct (in_dec str_dec f fs); auto). destruct K as [K|K]; [|rewrite !said_out by (intros C; apply K, Hf; auto); reflexivity].
  clear Hf. induction fs as [|g fs IH]; [destruct K|]. cbn [said_b] in H. apply andb_prop in H as [H H']. destruct K as [->|K]; [|auto]. apply andb_prop in H as [Hl H]. apply Nat.eqb_eq in Hl. revert Hl H. clear.
  generalize (said f l'). induction (said f l) as [|x r IH]; intros [|y s] L H; cbn [length combine forallb] in *; try discriminate; [reflexivity|]. apply andb_prop in H as [Hx H]. f_equal; [|apply IH; auto].
  destruct x, y; try discriminate; [apply str_eqb_eq in Hx; congruence|reflexivity].
Qed.
Example C100_example :
  valid (catnip disk1) the_line /\ Forall (fun i => is_note i = false) the_line /\ all_once the_line /\ Permutation the_line (rev the_line) /\ the_line <> rev the_line /\
  valid (catnip disk1) twice_a /\ valid (catnip disk1) twice_b /\ ~ all_notes (words twice_a) /\ same_said twice_a twice_b.
Proof.
  split; [apply validb_ok; [apply catnip_wf|vm_compute; reflexivity]|]. split; [repeat (constructor; [reflexivity|]); constructor|].
  split; [unfold all_once; cbn [the_line map concat flag_of app]; repeat (constructor; [intros C; cbn [In] in C; repeat (destruct C as [C|C]; [discriminate C|]); exact C|]); constructor|].
  split; [apply Permutation_rev|]. split; [intros C; discriminate (f_equal (fun l => match l with IVal x _ _ :: _ => str_eqb x $"-l_P" | _ => true end) C) || (apply (f_equal (fun l => words l)) in C; vm_compute in C; discriminate C)|].
  split; [apply validb_ok; [apply catnip_wf|vm_compute; reflexivity]|]. split; [apply validb_ok; [apply catnip_wf|vm_compute; reflexivity]|].
  split; [intros C; inversion C as [|? ? Hn _]; unfold note in Hn; cbn [In] in Hn; repeat (destruct Hn as [Hn|Hn]; [discriminate Hn|]); exact Hn|].
  apply (said_ok _ _ (concat (map flag_of twice_a) ++ concat (map flag_of twice_b))); [intros f I; apply in_app_iff; exact I|vm_compute; reflexivity].
Qed.
