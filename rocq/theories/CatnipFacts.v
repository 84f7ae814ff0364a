(** * The argument objects of CATNIP and what prepareParameters reads from them *)
From Verif Require Export CatnipSpec ParserMore.
Open Scope Z_scope.

(** ** the argument objects *)
Definition pun_obj E : arg E :=
  mkArg E AFile [PropertyFileExist] [] [] [] [setPropOption_ $"ALLOWED_FILE_EXT" (set_of pun_exts) PropertyFileExt]
    [setPropOption_ $"ALLOWED_SISTER_FILE_EXT" log_exts PropertySisterFile].
Definition log_obj E : arg E :=
  mkArg E AFile [PropertyFileExist] [] [] [] [setPropOption_ $"ALLOWED_FILE_EXT" [$".log"] PropertyFileExt]
    [setPropOption_ $"ALLOWED_SISTER_FILE_EXT" pun_exts PropertySisterFile].
Definition choice_obj E (cs : list str) : arg E :=
  mkArg E AString [] [] [PropertyString] []
    [setPropOption_ $"STRING_CHOICES" (set_of cs) (setPropOption_ $"STRING_CHOICE_ENFORCED" [s_true] PropertyStringChoice)] [].
Section Objects.
Context {E : env}.
Lemma pun_find f : In f pun_flags -> m_find f (file_arg (catnip E)) = Some (pun_obj E).
Proof. intros [<-|[<-|[<-|[]]]]; vm_compute; reflexivity. Qed.
Lemma log_find f : In f [$"--log_P"; $"--log_1"; $"--log_2"] -> m_find f (file_arg (catnip E)) = Some (log_obj E).
Proof. intros [<-|[<-|[<-|[]]]]; vm_compute; reflexivity. Qed.
Lemma spin_find f : In f [$"--spin_P"; $"--spin_1"; $"--spin_2"] -> m_find f (str_arg (catnip E)) = Some (choice_obj E [$"Alpha"; $"Beta"]).
Proof. intros [<-|[<-|[<-|[]]]]; vm_compute; reflexivity. Qed.
Lemma type_find f : In f [$"--orbital_type_1"; $"--orbital_type_2"] -> m_find f (str_arg (catnip E)) = Some (choice_obj E [$"HOMO"; $"LUMO"]).
Proof. intros [<-|[<-|[]]]; vm_compute; reflexivity. Qed.
Lemma num_find f : In f [$"--orbital_num_1"; $"--orbital_num_2"] -> m_find f (int_arg (catnip E)) = Some (ArgumentInt E).
Proof. intros [<-|[<-|[]]]; vm_compute; reflexivity. Qed.
Lemma reg_catnip : reg (catnip E). Proof. apply regular_reg, catnip_regular. Qed.

(** ** values on a valid line are admissible *)
Lemma given_admissible (P : parser E) l f w : valid P l -> In (f, w) (given l) -> admissible P f w.
Proof.
  induction l as [|[x g v|x g|x] t IH]; cbn [valid]; rewrite ?given_cons; intros V I.
  - destruct I.
  - destruct V as (_ & _ & A & V). destruct I as [I|I]; [inversion I; subst; auto|auto].
  - destruct V as (_ & _ & _ & _ & V). auto.
  - destruct V as (_ & V). auto.
Qed.
Lemma last_in f l w : last_value f l w -> In (f, w) (given l).
Proof. intros (a & b & -> & _). apply in_or_app. right. left. auto. Qed.
Lemma last_or_none f l : (exists w, last_value f l w) \/ forall w, ~ In (f, w) (given l).
Proof.
  destruct (vals f l) as [|x t] eqn:V using rev_ind; [right; apply vals_none; auto|left]. exists x. apply vals_last. eauto.
Qed.
Lemma last_unique f l w w' : last_value f l w -> last_value f l w' -> w = w'.
Proof. rewrite !vals_last. intros (r & ->) (r' & H). apply app_inj_tail in H. tauto. Qed.

(** ** sisters after a history of values *)
Lemma chain_sister exts vs : forall a a' p, for_each vs (argValid_str E) a = Ok a' -> a_vec E a = [p] -> p_kind p = PSister ->
  getPropOption p $"ALLOWED_SISTER_FILE_EXT" = Ok exts ->
  exists p', a_vec E a' = [p'] /\ p_kind p' = PSister /\ getPropOption p' $"ALLOWED_SISTER_FILE_EXT" = Ok exts /\
  (vs = [] -> p' = p) /\
  forall r w dir core ext, vs = r ++ [w] -> path_is w dir core ext ->
    let used := filter (fun e => negb (str_eqb e NOT_DEFINED)) exts in
    getPropOption p' $"SISTER_FILE_PATH_NAME" = Ok (map (fun e => dir ++ core ++ e) used) /\
    getPropOption p' $"SISTER_FILE_EXISTS" = Ok (map (fun e => if file_exists E (dir ++ core ++ e) then s_true else s_false) used).
Proof.
  induction vs as [|w t IH]; intros a a' p H A K X; cbn [for_each] in H.
  - inversion H; subst. exists p. split; [auto|]. split; [auto|]. split; [auto|]. split; [auto|]. intros r w dir core ext Hr. destruct r; discriminate.
  - apply bind_ok in H as (a1 & H1 & H). unfold argValid_str in H1. rewrite A in H1.
    apply bind_ok in H1 as (i & _ & H1). apply bind_ok in H1 as (z & _ & H1). apply bind_ok in H1 as (s & _ & H1). apply bind_ok in H1 as (st & _ & H1).
    cbn [each] in H1. unfold v_vec in H1. rewrite K in H1.
    destruct (path_is_exists w) as (dir & core & ext & Hp).
    destruct (sister_valid E p exts w dir core ext X Hp) as (p1 & E1 & K1 & X1 & _ & _ & N1 & S1). rewrite E1 in H1. cbn [bind] in H1. inversion H1; subst a1.
    edestruct IH as (p' & A' & K' & X' & T0 & Tl); [exact H|reflexivity|congruence|exact X1|].
    exists p'. split; [auto|]. split; [auto|]. split; [auto|]. split; [discriminate|].
    intros r w' dir' core' ext' Hr Hp'. destruct r as [|x r].
    + cbn [app] in Hr. inversion Hr; subst. rewrite (T0 eq_refl).
      destruct (sister_valid E p exts w' dir' core' ext' X Hp') as (p2 & E2 & _ & _ & _ & _ & N2 & S2). rewrite E1 in E2. inversion E2; subst. auto.
    + cbn [app] in Hr. inversion Hr; subst. eapply Tl; eauto.
Qed.

(** ** join and splitSt *)
Lemma join_weave ws : ws <> [] -> Forall word ws -> exists q, join ws = weave [] q /\ woven [] q /\ map fst q = ws.
Proof.
  intros N F. exists (map (fun w => (w, $" ")) (removelast ws) ++ [(last ws [], [])]).
  assert (G : forall ws, ws <> [] -> Forall word ws ->
     concat (map (fun v => v ++ $" ") ws) = weave [] (map (fun w => (w, $" ")) (removelast ws) ++ [(last ws [], [])]) ++ $" " /\
     ends_solid (weave [] (map (fun w => (w, $" ")) (removelast ws) ++ [(last ws [], [])])) /\
     begins_solid (weave [] (map (fun w => (w, $" ")) (removelast ws) ++ [(last ws [], [])])) /\
     forall g, (g = [] \/ g = $" ") -> woven g (map (fun w => (w, $" ")) (removelast ws) ++ [(last ws [], [])])).
  { clear. intros ws N F. induction ws as [|w t IH]; [congruence|]. inversion F as [|? ? Hw Ft]; subst.
    assert (B : forall r, begins_solid (w ++ r)).
    { intros r c q Hq. destruct Hw as [W1 W2]. destruct w as [|d w]; [congruence|]. inversion Hq; subst. apply W2. left; auto. }
    assert (Wg : forall g, g = [] \/ g = $" " -> white g). { intros g [->| ->]; [apply white_nil|]. intros c [<-|[]]. vm_compute; auto. }
    destruct t as [|w2 t].
    - cbn [map concat removelast app last weave]. rewrite !app_nil_r. split; [auto|]. split; [|split].
      + intros c q Hq. destruct Hw as [_ W2]. apply W2. rewrite Hq. apply in_or_app. right; left; auto.
      + specialize (B []). rewrite app_nil_r in B. exact B.
      + intros g Hg. cbn [woven]. split; [auto|]. split; [auto|]. split; [intros C; contradiction C; reflexivity|]. split; [apply white_nil|auto].
    - destruct (IH ltac:(discriminate) Ft) as (I1 & I2 & I3 & I4).
      set (q := map (fun w => (w, $" ")) (removelast (w2 :: t)) ++ [(last (w2 :: t) [], [])]) in *.
      change (removelast (w :: w2 :: t)) with (w :: removelast (w2 :: t)). change (last (w :: w2 :: t) []) with (last (w2 :: t) []).
      cbn [map app]. fold q. cbn [concat map weave]. cbn [map concat] in I1. rewrite I1. cbn [app].
      assert (Q : forall g, weave g q = g ++ weave [] q). { intros g. unfold q. destruct (map _ _) as [|[u v] r]; reflexivity. }
      rewrite (Q $" "). split; [rewrite <- !app_assoc; reflexivity|]. split; [|split].
      + intros c r Hr. assert (Nq : weave [] q <> []).
        { unfold q. inversion Ft as [|? ? Hw2 _]; subst. destruct Hw2 as [W2 _]. destruct w2 as [|c2 w2]; [congruence|]. destruct t; discriminate. }
        destruct (exists_last Nq) as (r' & c' & Hc). rewrite Hc, !app_assoc in Hr. apply app_inj_tail in Hr as [_ <-]. eapply I2; eauto.
      + apply B.
      + intros g Hg. cbn [woven]. split; [auto|]. split; [auto|]. split; [discriminate|]. apply I4; auto. }
  destruct (G ws N F) as (G1 & G2 & G3 & G4). unfold join. rewrite G1. split; [|split].
  - rewrite <- (app_nil_l (weave _ _ ++ _)) at 1. apply trim_unique; auto; [apply white_nil|]. intros c [<-|[]]. vm_compute; auto.
  - apply G4. auto.
  - rewrite map_app, map_map. cbn [map fst]. rewrite map_id. symmetry. apply app_removelast_last; auto.
Qed.
Lemma split_join ws : ws <> [] -> Forall word ws -> splitSt (join ws) = ws.
Proof. intros N F. destruct (join_weave ws N F) as (q & -> & W & <-). apply splitSt_weave; auto. Qed.
End Objects.
