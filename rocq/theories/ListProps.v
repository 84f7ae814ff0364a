(** * C95: the lists of properties, options and values of an argument agree *)
From Verif Require Import StrFacts ArgsFacts ParserWf ParserStateWf OptionFacts OptionHistory.
From Verif Require Export ListSpec.
Open Scope Z_scope.

Section Facts.
Context {E : env}.
Lemma same_on {T} (f : T -> outcome T) (l : list T) : (forall x y, f x = Ok y -> y = x) -> fst (each_on (whole f) l) = l.
Proof.
  intros H. induction l as [|x t IH]; [reflexivity|]. cbn [each_on]. unfold whole at 1. destruct (f x) as [y| | | |] eqn:F; cbn [fst]; try reflexivity.
  rewrite IH. f_equal. auto.
Qed.
Lemma argument_shape k a : an_argument E k a -> shape a /\ a_kind E a = k.
Proof.
  induction 1 as [| | | | |k a pr o v a' A IH H|k a pr o v a' A IH H|k a pr o v a' A IH H|k a pr o v a' A IH H|k a pr o v a' A IH H|a v A IH|a v A IH|k a v A IH I].
  - exact (fresh_shape AInt).
  - exact (fresh_shape ADouble).
  - exact (fresh_shape AString).
  - exact (fresh_shape ASwitch).
  - exact (fresh_shape AFile).
  - destruct IH as [S <-]. exact (set_int_shape _ _ _ _ _ H S).
  - destruct IH as [S <-]. exact (set_dbl_shape _ _ _ _ _ H S).
  - destruct IH as [S <-]. exact (set_str_shape _ _ _ _ _ H S).
  - destruct IH as [S <-]. exact (set_set_shape _ _ _ _ _ H S).
  - destruct IH as [S <-]. exact (set_vec_shape _ _ _ _ _ H S).
  - assert (Q : fst (argValid_int_on v a) = a). { unfold argValid_int_on, part. cbn [fst]. rewrite same_on by apply int_same. destruct a; reflexivity. } rewrite Q. exact IH.
  - assert (Q : fst (argValid_dbl_on v a) = a). { unfold argValid_dbl_on, part. cbn [fst]. rewrite same_on by apply dbl_same. destruct a; reflexivity. } rewrite Q. exact IH.
  - destruct IH as [S <-]. exact (argValid_str_on_shape v a S).
Qed.

(** the value of an option in a list of properties: the last one counts *)
Fixpoint last_value {T} (text : T -> str) (o : str) (ps : list (prop T)) : option str :=
  match ps with
  | [] => None
  | p :: t => match last_value text o t with
              | Some x => Some x
              | None => if existsb (str_eqb o) (prop_opts (p_kind p)) then match getPropOption p o with Ok v => Some (text v) | _ => None end else None
              end
  end.
Lemma values_one {T} (text : T -> str) (p : prop T) os : (forall o, In o os -> exists v, getPropOption p o = Ok v) -> forall m, exists m',
  for_each os (fun opt m => value <- getPropOption p opt ;; Ok (m_set opt (text value) m)) m = Ok m' /\
  forall o, m_find o m' = if existsb (str_eqb o) os then match getPropOption p o with Ok v => Some (text v) | _ => None end else m_find o m.
Proof.
  induction os as [|o1 t IH]; intros F m; cbn [for_each existsb]; [eauto|].
  destruct (F o1) as (v & G); [left; auto|]. rewrite G. cbn [bind]. destruct (IH (fun o I => F o (or_intror I)) (m_set o1 (text v) m)) as (m' & E1 & H). exists m'. split; [exact E1|].
  intros o. rewrite H. destruct (existsb (str_eqb o) t); [rewrite orb_true_r; auto|]. rewrite orb_false_r. destruct (str_eqb_spec o o1) as [->|N].
  - rewrite find_set_eq, G. reflexivity.
  - apply find_set_ne. auto.
Qed.
Lemma values_all {T} (text : T -> str) (ps : list (prop T)) : Forall full_prop ps -> forall m, exists m',
  values_in text ps m = Ok m' /\ forall o, m_find o m' = match last_value text o ps with Some x => Some x | None => m_find o m end.
Proof.
  unfold values_in. induction ps as [|p t IH]; intros F m; cbn [for_each last_value]; [eauto|].
  inversion F as [|? ? Fp Ft]; subst. destruct (values_one text p (prop_opts (p_kind p)) (proj1 Fp) m) as (m1 & -> & H1). cbn [bind].
  destruct (IH Ft m1) as (m' & -> & H). exists m'. split; [reflexivity|]. intros o. rewrite H, H1. destruct (last_value text o t); [auto|].
  destruct (existsb (str_eqb o) (prop_opts (p_kind p))) eqn:X; [|auto]. apply existsb_exists in X as (y & I & Q). apply str_eqb_eq in Q. subst y.
  destruct (proj1 Fp o I) as (v & ->). reflexivity.
Qed.
Lemma lists a : shape a -> exists m, getAllPropertyValues E a = Ok m /\ forall o, m_find o m =
  orelse (last_value join o (a_vec E a)) (orelse (last_value join o (a_set E a)) (orelse (last_value (fun s => s) o (a_str E a))
   (orelse (last_value dec o (a_size E a)) (orelse (last_value (d_text E) o (a_dbl E a)) (last_value dec o (a_int E a)))))).
Proof.
  intros S. unfold getAllPropertyValues.
  destruct (values_all dec _ (proj2 (sh_int _ S)) []) as (m1 & -> & H1). cbn [bind]. destruct (values_all (d_text E) _ (proj2 (sh_dbl _ S)) m1) as (m2 & -> & H2). cbn [bind].
  destruct (values_all dec _ (proj2 (sh_size _ S)) m2) as (m3 & -> & H3). cbn [bind]. destruct (values_all (fun s => s) _ (proj2 (sh_str _ S)) m3) as (m4 & -> & H4). cbn [bind].
  destruct (values_all join _ (proj2 (sh_set _ S)) m4) as (m5 & -> & H5). cbn [bind]. destruct (values_all join _ (proj2 (sh_vec _ S)) m5) as (m6 & -> & H6).
  exists m6. split; [reflexivity|]. intros o. rewrite H6, H5, H4, H3, H2, H1. unfold orelse.
  destruct (last_value join o (a_vec E a)); auto. destruct (last_value join o (a_set E a)); auto. destruct (last_value (fun s => s) o (a_str E a)); auto.
  destruct (last_value dec o (a_size E a)); auto. destruct (last_value (d_text E) o (a_dbl E a)); auto. destruct (last_value dec o (a_int E a)); auto.
Qed.
Lemma opts_table k pr o : In (pr, o) (opts_of k) <-> exists os, In (pr, os) (properties_of k) /\ In o os.
Proof.
  unfold opts_of. split.
  - intros I. apply in_concat in I as (x & Ix & I). apply in_map_iff in Ix as (p & <- & Ip). apply in_map_iff in I as (o' & Q & Io).
    exists (prop_opts p). pose proof (f_equal fst Q) as Q1. pose proof (f_equal snd Q) as Q2. cbn [fst snd] in Q1, Q2. subst. split; [|exact Io].
    destruct k; cbn in Ip; repeat (destruct Ip as [<-|Ip]; [cbn; auto|]); destruct Ip.
  - intros (os & I & Io). apply in_concat. exists (map (fun o => (pr, o)) os). split; [|apply in_map; auto].
    destruct k; cbn [properties_of In] in I; repeat (destruct I as [I|I]; [pose proof (f_equal fst I) as Q1; pose proof (f_equal snd I) as Q2; cbn [fst snd] in Q1, Q2; subst; cbn; auto|]); destruct I.
Qed.
End Facts.

(** The properties and options listed are those of the type, whatever was done to the argument. *)
Theorem C95_listed : forall E k a, an_argument E k a ->
  getProperties E a = map fst (properties_of k) /\ getPropertyOptions E a = concat (map snd (properties_of k)).
Proof.
  intros E k a A. apply argument_shape in A as [S <-].
  assert (N : forall T (ps : list (prop T)) K, map p_kind ps = K -> prop_names ps = map prop_name K /\ prop_options ps = concat (map prop_opts K)).
  { intros T ps K <-. unfold prop_names, prop_options. rewrite !map_map. auto. }
  unfold getProperties, getPropertyOptions.
  destruct (N _ _ _ (proj1 (sh_int _ S))) as [-> ->]. destruct (N _ _ _ (proj1 (sh_dbl _ S))) as [-> ->]. destruct (N _ _ _ (proj1 (sh_size _ S))) as [-> ->].
  destruct (N _ _ _ (proj1 (sh_str _ S))) as [-> ->]. destruct (N _ _ _ (proj1 (sh_set _ S))) as [-> ->]. destruct (N _ _ _ (proj1 (sh_vec _ S))) as [-> ->].
  destruct (a_kind E a); split; reflexivity.
Qed.
Print Assumptions C95_listed.

(** An option can be read exactly if it is listed, and the table of all values has that value. *)
Theorem C95_values : forall E k a, an_argument E k a -> exists m, getAllPropertyValues E a = Ok m /\
  (forall pr os o, In (pr, os) (properties_of k) -> In o os -> exists t, getPropertyValues E a pr o = Ok t /\ m_find o m = Some t) /\
  (forall pr o, (forall os, In (pr, os) (properties_of k) -> ~ In o os) -> getPropertyValues E a pr o = Throw InvalidArgument) /\
  (forall o, ~ In o (getPropertyOptions E a) -> m_find o m = None).
Proof.
  intros E k a A. pose proof (C95_listed E k a A) as [_ L]. apply argument_shape in A as [S K]. destruct (lists a S) as (m & Em & Hm). exists m. split; [exact Em|].
  split; [|split].
  - intros pr os o I Io. assert (I2 : In (pr, o) (opts_of (a_kind E a))) by (rewrite K; apply opts_table; eauto).
    destruct (total_value a pr o S) as [[_ (t & Q)]|[Q _]]; [|contradiction]. exists t. split; [exact Q|]. rewrite Hm. clear I2 Em Hm m L.
    destruct S as [[S1 F1] [S2 F2] [S3 F3] [S4 F4] [S5 F5] [S6 F6]]. unfold getPropertyValues in Q. rewrite K in *.
    assert (L0 : forall T (ps : list (prop T)), map p_kind ps = [] -> ps = []) by (intros T [|? ?] X; [reflexivity|discriminate]).
    assert (L1 : forall T (ps : list (prop T)) q, map p_kind ps = [q] -> exists p, ps = [p] /\ p_kind p = q).
    { intros T [|p [|? ?]] q X; try discriminate. exists p. split; [reflexivity|]. cbn [map] in X. congruence. }
    destruct k; cbn [ki kd kz ks kset ParserWf.kv] in *;
      repeat match goal with
      | H : map p_kind ?l = [] |- _ => apply L0 in H; rewrite H in Q |- *; clear H
      | H : map p_kind ?l = [_] |- _ => let p := fresh "p" in let X := fresh "X" in apply L1 in H as (p & H & X); rewrite H in Q |- *; clear H
      end;
      cbn [properties_of In] in I;
      repeat match type of I with _ \/ _ => destruct I as [I|I] | False => destruct I end;
      pose proof (f_equal fst I) as I1; pose proof (f_equal snd I) as I2; cbn [fst snd] in I1, I2; clear I; subst pr os;
      cbn [In] in Io; repeat match type of Io with _ \/ _ => destruct Io as [<-|Io] | False => destruct Io end;
      repeat match goal with H : p_kind ?p = _ |- _ => cbn [prop_value last_value] in Q |- *; rewrite H in Q |- *; clear H end;
      cbn - [getPropOption] in Q |- *;
      match type of Q with context [getPropOption ?p ?o] => destruct (getPropOption p o) end; cbn in Q |- *; congruence.
  - intros pr o N. destruct (total_value a pr o S) as [[I _]|[_ Q]]; [|exact Q]. rewrite K in I. apply opts_table in I as (os & I & Io). destruct (N os I Io).
  - intros o N. rewrite Hm. 
    assert (Z : forall T (text : T -> str) (ps : list (prop T)), ~ In o (concat (map prop_opts (map p_kind ps))) -> last_value text o ps = None).
    { intros T text ps. induction ps as [|p t IH]; intros X; [reflexivity|]. cbn [last_value map concat] in *. rewrite in_app_iff in X. rewrite IH by tauto.
      destruct (existsb (str_eqb o) (prop_opts (p_kind p))) eqn:Y; [|auto]. apply existsb_exists in Y as (y & I & Q). apply str_eqb_eq in Q. subst y. tauto. }
    assert (W : forall K', (forall x, In x K' -> In x (ki (a_kind E a) ++ kd (a_kind E a) ++ kz (a_kind E a) ++ ks (a_kind E a) ++ kset (a_kind E a) ++ ParserWf.kv (a_kind E a))) -> ~ In o (concat (map prop_opts K'))).
    { intros K' Sub I. apply in_concat in I as (x & Ix & I). apply in_map_iff in Ix as (p & <- & Ip). apply N. rewrite L, <- K. apply Sub in Ip. apply in_concat. exists (prop_opts p). split; [|exact I].
      destruct (a_kind E a); cbn in Ip; repeat (destruct Ip as [<-|Ip]; [cbn; auto|]); destruct Ip. }
    rewrite !Z; [reflexivity|..]; apply W; rewrite ?(proj1 (sh_int _ S)), ?(proj1 (sh_dbl _ S)), ?(proj1 (sh_size _ S)), ?(proj1 (sh_str _ S)), ?(proj1 (sh_set _ S)), ?(proj1 (sh_vec _ S)); intros x Ix; rewrite !in_app_iff; auto 8.
Qed.
Print Assumptions C95_values.

(** a case: a number of at least 3, after a refused 2; a file *)
Definition c95_world : env := mkEnv Z Z.ltb (-1000) 1000 dec stoi (fun n => str_eqb n $"runs/a.pun").
Definition arg_of (x : outcome (arg c95_world)) : arg c95_world := match x with Ok a => a | _ => ArgumentInt c95_world end.
Definition c95_min := arg_of (setArgPropertyOpt_int c95_world $"PROPERTY_INT" $"MIN" 3 (ArgumentInt c95_world)).
Definition c95_number := fst (argValid_int_on (E:=c95_world) 2 c95_min).
Definition c95_sister := arg_of (setArgPropertyOpt_vec c95_world $"PROPERTY_SISTER_FILE" $"ALLOWED_SISTER_FILE_EXT" [$".pun"] (ArgumentFile c95_world)).
Definition c95_file := fst (argValid_str_on (E:=c95_world) $"runs/a.log" c95_sister).
Example C95_example : an_argument c95_world AInt c95_number /\ an_argument c95_world AFile c95_file /\
  getAllPropertyValues c95_world c95_number = Ok [($"MAX", $"2147483647"); ($"MIN", $"3")] /\
  (m <- getAllPropertyValues c95_world c95_file ;; Ok (m_find $"SISTER_FILE_PATH_NAME" m)) = Ok (Some $"runs/a.pun").
Proof.
  split. { apply valid_int. apply (set_int _ _ (ArgumentInt c95_world) $"PROPERTY_INT" $"MIN" 3); [apply new_int|reflexivity]. }
  split. { apply valid_str; [|cbn; auto]. apply (set_vec _ _ (ArgumentFile c95_world) $"PROPERTY_SISTER_FILE" $"ALLOWED_SISTER_FILE_EXT" [$".pun"]); [apply new_file|reflexivity]. }
  split; vm_compute; reflexivity.
Qed.
