(** * C54, C57, C58: the flags of CATNIP *)
From Verif Require Import ParserProps.
From Verif Require Export StrSpec StrModel.

(** flag, abbreviation, and whether it is followed by a file, a text, an int, or nothing *)
Definition catnip_table : list (str * str * fkind) :=
  [($"--citation", $"-cite", KSwitch); ($"--counter_poise", $"-cp", KSwitch); ($"--version", $"-v", KSwitch);
   ($"--log_P", $"-l_P", KFile); ($"--log_1", $"-l_1", KFile); ($"--log_2", $"-l_2", KFile);
   ($"--pun_P", $"-p_P", KFile); ($"--pun_1", $"-p_1", KFile); ($"--pun_2", $"-p_2", KFile);
   ($"--spin_P", $"-s_P", KStr); ($"--spin_1", $"-s_1", KStr); ($"--spin_2", $"-s_2", KStr);
   ($"--orbital_type_1", $"-orb_ty_1", KStr); ($"--orbital_type_2", $"-orb_ty_2", KStr);
   ($"--orbital_num_1", $"-orb_num_1", KInt); ($"--orbital_num_2", $"-orb_num_2", KInt)].

Definition flag_names {E} (P : parser E) : list (str * str) := map (fun it => (fst it, fst (snd it))) (flags P).
(** the flags of CATNIP are those of the table and --help / -h, and each takes what the table says *)
Theorem C54_catnip_flags : forall E,
  (forall f a, registered (catnip E) f a <-> (f, a) = ($"--help", $"-h") \/ exists k, In (f, a, k) catnip_table) /\
  (forall f k, has_kind (catnip E) f k <-> exists a, In (f, a, k) catnip_table).
Proof.
  intros E.
  assert (F : forallb (fun p => existsb (fun q => str_eqb (fst p) (fst q) && str_eqb (snd p) (snd q)) (($"--help", $"-h") :: map fst catnip_table)) (flag_names (catnip E)) = true) by (vm_compute; reflexivity).
  assert (F' : (fun P : parser E => forallb (fun q => match m_find (fst q) (flags P) with Some (a, _) => str_eqb a (snd q) | None => false end) (($"--help", $"-h") :: map fst catnip_table)) (catnip E) = true) by (vm_compute; reflexivity).
  assert (K : (fun P : parser E => forallb (fun k => forallb (fun f => existsb (fun q => str_eqb f (fst (fst q)) && match k, snd q with KStr, KStr | KSwitch, KSwitch | KInt, KInt | KDouble, KDouble | KFile, KFile => true | _, _ => false end) catnip_table)
     (map fst (args_of P k))) [KStr; KSwitch; KInt; KDouble; KFile]) (catnip E) = true) by (vm_compute; reflexivity).
  assert (K' : (fun P : parser E => forallb (fun q => m_has (fst (fst q)) (args_of P (snd q))) catnip_table) (catnip E) = true) by (vm_compute; reflexivity).
  pose proof (catnip_wf (E := E)) as W. revert F F' K K' W. generalize (catnip E) as P. intros P F F' K K' W. cbv beta in F', K, K'.
  rewrite forallb_forall in F, F', K, K'. split.
  - intros f a. split.
    + intros (d & H). apply (find_in _ _ _ (w_flags _ W)) in H. specialize (F (f, a)).
      assert (I : In (f, a) (flag_names P)) by (unfold flag_names; apply in_map_iff; exists (f, (a, d)); auto). apply F in I. apply existsb_exists in I as (q & Iq & Q). apply andb_prop in Q as [Q1 Q2].
      cbn [fst snd] in Q1, Q2. apply str_eqb_eq in Q1. apply str_eqb_eq in Q2. destruct Iq as [<-|Iq]; [left; rewrite Q1, Q2; reflexivity|]. right.
      apply in_map_iff in Iq as ([[g b] k] & Eq & Iq). cbn [fst] in Eq. subst q. exists k. cbn [fst snd] in *. rewrite Q1, Q2. exact Iq.
    + intros H. assert (I : In (f, a) (($"--help", $"-h") :: map fst catnip_table)).
      { destruct H as [H|(k & H)]; [left; symmetry; exact H|right]. apply in_map_iff. exists (f, a, k). auto. }
      apply F' in I. cbn [fst snd] in I. unfold registered. destruct (m_find f (flags P)) as [[b d]|]; [|discriminate]. apply str_eqb_eq in I. subst. eauto.
  - intros f k. split.
    + intros (a & H). assert (Ik : In k [KStr; KSwitch; KInt; KDouble; KFile]) by (destruct k; cbn [In]; auto 10). apply K in Ik. rewrite forallb_forall in Ik.
      specialize (Ik f). assert (If : In f (map fst (args_of P k))).
      { apply in_map_iff. exists (f, a). split; [reflexivity|]. clear - H. induction (args_of P k) as [|[g b] t IH]; [discriminate|]. cbn [m_find] in H. destruct (str_eqb f g) eqn:Q; [apply str_eqb_eq in Q; injection H as <-; subst; left; auto|right; auto]. }
      apply Ik in If. apply existsb_exists in If as ([[g b] k'] & I & Q). apply andb_prop in Q as [Q1 Q2]. cbn [fst snd] in *. apply str_eqb_eq in Q1. subst g. exists b. destruct k, k'; try discriminate; exact I.
    + intros (a & I). apply K' in I. cbn [fst snd] in I. unfold m_has in I. destruct (m_find f (args_of P k)) as [b|] eqn:Q; [|discriminate]. exists b. exact Q.
Qed.
Print Assumptions C54_catnip_flags.
