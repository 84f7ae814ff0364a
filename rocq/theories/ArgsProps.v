(** * Properties C45-C51, C77, C78: arguments and their properties *)
From Verif Require Import ArgsFacts.
Open Scope Z_scope.

(** ** C45 *)
Theorem C45_stoi : forall z, (is_int z -> stoi (dec z) = Ok z) /\ (~ is_int z -> stoi (dec z) = Throw OutOfRange).
Proof.
  intros z. pose proof (stoi_dec_gen [] z [] white_nil) as H. rewrite app_nil_r in H. cbn [app] in H.
  assert (K : stops []) by (intros c t K; discriminate). specialize (H K).
  destruct (is_intb z) eqn:B; [apply is_intb_true in B|apply is_intb_false in B]; split; intros; auto; contradiction.
Qed.
Print Assumptions C45_stoi.

(** After any history of MIN/MAX settings the limits in force are those set last. *)
Theorem C45_limits : forall E settings, (forall k v, In (k, v) settings -> k = $"MIN" \/ k = $"MAX") ->
  let lo := last_given $"MIN" INT_MIN settings in
  let hi := last_given $"MAX" INT_MAX settings in
  exists a, for_each settings (fun kv => setArgPropertyOpt_int E $"PROPERTY_INT" (fst kv) (snd kv)) (ArgumentInt E) = Ok a /\
    forall v, (lo <= v <= hi -> argValid_int E v a = Ok a) /\
              (v < lo \/ hi < v -> argValid_int E v a = Throw InvalidArgument).
Proof.
  intros E settings H lo hi.
  destruct (settings_ok settings PropertyInt) as (p & Ep & K & G).
  { intros k v I. destruct (H k v I) as [-> | ->]; eexists; reflexivity. }
  exists (mkArg E AInt [p] [] [] [] [] []). split.
  - change (ArgumentInt E) with (mkArg E AInt [PropertyInt] [] [] [] [] []).
    assert (Kq : p_kind PropertyInt = PInt) by reflexivity. revert Ep Kq. clear. generalize PropertyInt.
    induction settings as [|[k v] t IH]; intros q Ep Kq; simpl in *; [congruence|].
    unfold setArgPropertyOpt_int at 1. cbn [a_int fst snd a_kind a_dbl a_size a_str a_set a_vec].
    rewrite set_in_one by (rewrite Kq; reflexivity).
    destruct (setPropOption k v q) as [q'| | | |] eqn:Eq; try discriminate. cbn [bind fst snd] in *.
    apply IH; auto. unfold setPropOption in Eq. destruct (propOptionValid_ q k); inversion Eq; auto.
  - intros v. assert (G1 : getPropOption p $"MIN" = Ok lo) by (apply G; reflexivity).
    assert (G2 : getPropOption p $"MAX" = Ok hi) by (apply G; reflexivity).
    destruct (int_valid lo hi p v G1 G2) as [V1 V2].
    unfold argValid_int. cbn [a_int each]. split; intros Hv.
    + rewrite V1 by auto. reflexivity.
    + rewrite V2 by lia. reflexivity.
Qed.
Print Assumptions C45_limits.
Example C45_example : let l := [($"MIN", -5); ($"MAX", 7); ($"MIN", -3)] in
  last_given $"MIN" INT_MIN l = -3 /\ last_given $"MAX" INT_MAX l = 7 /\ last_given $"MAX" INT_MAX [] = INT_MAX.
Proof. repeat split. Qed.

(** ** C46 *)
(** PropertyString through its own interface: any history of settings *)
Theorem C46_lengths : forall settings, (forall k v, In (k, v) settings -> k = $"MIN_LENGTH" \/ k = $"MAX_LENGTH") ->
  let lo := last_given $"MIN_LENGTH" 0 settings in
  let hi := last_given $"MAX_LENGTH" 18446744073709551615 settings in
  exists p, for_each settings (fun kv => setPropOption (fst kv) (snd kv)) PropertyString = Ok p /\
    forall s, (lo <= Z.of_nat (length s) <= hi -> string_propValid s p = Ok p) /\
              (Z.of_nat (length s) < lo \/ hi < Z.of_nat (length s) -> string_propValid s p = Throw InvalidArgument).
Proof.
  intros settings H lo hi. destruct (settings_ok settings PropertyString) as (p & Ep & K & G).
  { intros k v I. destruct (H k v I) as [-> | ->]; eexists; reflexivity. }
  exists p. split; auto. intros s. destruct (string_valid lo hi p s) as [V1 V2]; [apply G; reflexivity..|].
  unfold len in *. split; intros; auto. apply V2. lia.
Qed.
Print Assumptions C46_lengths.
(** a string argument nobody configured accepts every string that can exist *)
Theorem C46_default_accepts_all : forall E s, storable s -> argValid_str E s (ArgumentString E) = Ok (ArgumentString E).
Proof.
  intros E s S. unfold argValid_str, ArgumentString. cbn [a_int a_size a_str a_set a_vec each bind v_size].
  unfold v_size. change (p_kind PropertyString) with PString. cbv iota.
  destruct (string_valid 0 (SIZE_MOD - 1) PropertyString s) as [V1 _]; try reflexivity.
  rewrite V1; [reflexivity|]. unfold storable, SIZE_MOD, len in *. lia.
Qed.
Print Assumptions C46_default_accepts_all.
Example C46_example : let l := [($"MAX_LENGTH", 4); ($"MIN_LENGTH", 2)] in
  last_given $"MIN_LENGTH" 0 l = 2 /\ last_given $"MAX_LENGTH" 18446744073709551615 l = 4 /\ storable $"abc".
Proof. repeat split. Qed.

(** ** C47 *)
(** [argument] configured to enforce (or not) the choices [cs] *)
Theorem C47_choices : forall E cs, exists a1 a2,
  setArgPropertyOpt_set E $"PROPERTY_STRING_CHOICE" $"STRING_CHOICES" cs (ArgumentString E) = Ok a1 /\
  setArgPropertyOpt_str E $"PROPERTY_STRING_CHOICE" $"STRING_CHOICE_ENFORCED" $"true" a1 = Ok a2 /\
  forall s, storable s ->
    argValid_str E s a1 = Ok a1 /\
    (In s cs -> argValid_str E s a2 = Ok a2) /\
    (~ In s cs -> argValid_str E s a2 = Throw InvalidArgument).
Proof.
  intros E cs.
  set (p1 := setPropOption_ $"STRING_CHOICES" cs PropertyStringChoice).
  set (p2 := setPropOption_ $"STRING_CHOICE_ENFORCED" [s_true] p1).
  exists (mkArg E AString [] [] [PropertyString] [] [p1] []), (mkArg E AString [] [] [PropertyString] [] [p2] []).
  split; [reflexivity|]. split; [reflexivity|]. intros s S.
  assert (V : string_propValid s PropertyString = Ok PropertyString).
  { apply (string_valid 0 (SIZE_MOD - 1)); try reflexivity. unfold storable, SIZE_MOD, len in *. lia. }
  unfold argValid_str. cbn [a_int a_size a_str a_set a_vec a_kind a_dbl each bind].
  unfold v_size. change (p_kind PropertyString) with PString. cbv iota. rewrite V. cbn [bind].
  unfold v_set. change (p_kind p1) with PChoice. change (p_kind p2) with PChoice. cbv iota.
  destruct (choice_valid p1 s_false cs s) as (_ & _ & W1); [reflexivity..|].
  destruct (choice_valid p2 s_true cs s) as (W2 & W3 & _); [reflexivity..|].
  split; [rewrite W1 by discriminate; reflexivity|]. split; intros; [rewrite W2 by auto|rewrite W3 by auto]; reflexivity.
Qed.
Print Assumptions C47_choices.
Example C47_example : In $"Alpha" [$"Alpha"; $"Beta"] /\ ~ In $"alpha" [$"Alpha"; $"Beta"] /\ storable $"Alpha".
Proof. repeat split; [now left|]. intros [H|[H|[]]]; discriminate. Qed.

(** ** C48 *)
(** full property: the call succeeds and makes the string the only choice.  The
    choice is stored, but the call then throws. *)
Theorem C48_single_choice_refuted : forall s, exists p,
  choice_setPropOption_str $"STRING_CHOICES" s PropertyStringChoice = (p, Some InvalidArgument) /\
  getPropOption p $"STRING_CHOICES" = Ok [s].
Proof. intros s. eexists. split; reflexivity. Qed.
Print Assumptions C48_single_choice_refuted.
(** the overload for sets, and the way through an argument object, work *)
Theorem C48_set_partial : forall E s p, exists p' a',
  choice_setPropOption_set $"STRING_CHOICES" [s] p = Ok p' /\ getPropOption p' $"STRING_CHOICES" = Ok [s] /\
  setArgPropertyOpt_str E $"PROPERTY_STRING_CHOICE" $"STRING_CHOICES" s (ArgumentString E) = Ok a' /\
  getPropertyValues E a' $"PROPERTY_STRING_CHOICE" $"STRING_CHOICES" = Ok (trim (s ++ $" ")).
Proof.
  intros E s p. eexists _, _. split; [reflexivity|]. split; [apply get_set|]. split; [reflexivity|].
  transitivity (Ok (join [s])); [reflexivity|]. unfold join. cbn [map concat]. now rewrite app_nil_r.
Qed.
Print Assumptions C48_set_partial.
(** the enforcement switch takes exactly "true" and "false" *)
Theorem C48_enforced : forall s p, 
  (s = $"true" \/ s = $"false" -> exists p', choice_setPropOption_str $"STRING_CHOICE_ENFORCED" s p = (p', None) /\
      getPropOption p' $"STRING_CHOICE_ENFORCED" = Ok [s]) /\
  (s <> $"true" /\ s <> $"false" -> choice_setPropOption_str $"STRING_CHOICE_ENFORCED" s p = (p, Some InvalidArgument)).
Proof.
  intros s p. split.
  - intros [-> | ->]; eexists; (split; [reflexivity|apply get_set]).
  - intros [N1 N2]. unfold choice_setPropOption_str. change (str_eqb _ _) with true at 1. cbv iota.
    apply str_eqb_neq in N1, N2. unfold s_true, s_false. rewrite N1, N2. reflexivity.
Qed.
Print Assumptions C48_enforced.
(** the overload for sets: every option and every set *)
Theorem C48_set_overload : forall o vars p,
  (o = $"STRING_CHOICES" \/ (o = $"STRING_CHOICE_ENFORCED" /\ (vars = [$"true"] \/ vars = [$"false"])) ->
     exists p', choice_setPropOption_set o vars p = Ok p' /\ getPropOption p' o = Ok vars /\
       forall o', o' <> o -> getPropOption p' o' = getPropOption p o') /\
  (o = $"STRING_CHOICE_ENFORCED" -> vars = [] -> choice_setPropOption_set o vars p = Undef BadIterator) /\
  (o = $"STRING_CHOICE_ENFORCED" -> vars <> [] -> vars <> [$"true"] -> vars <> [$"false"] ->
     choice_setPropOption_set o vars p = Throw InvalidArgument) /\
  (o <> $"STRING_CHOICES" -> o <> $"STRING_CHOICE_ENFORCED" -> choice_setPropOption_set o vars p = Throw InvalidArgument).
Proof.
  intros o vars p. split; [|split; [|split]].
  - intros [->|[-> [-> | ->]]]; eexists; (split; [reflexivity|]); (split; [apply get_set|intros o' N; now apply get_set_ne]).
  - intros -> ->. reflexivity.
  - intros -> N0 N1 N2. unfold choice_setPropOption_set. change (str_eqb _ $"STRING_CHOICES") with false. change (str_eqb _ $"STRING_CHOICE_ENFORCED") with true.
    cbv iota. destruct vars as [|x [|y t]]; [contradiction| |reflexivity].
    assert (M1 : x <> s_true) by (intros ->; apply N1; reflexivity). assert (M2 : x <> s_false) by (intros ->; apply N2; reflexivity).
    apply str_eqb_neq in M1, M2. rewrite M1, M2. reflexivity.
  - intros N1 N2. apply str_eqb_neq in N1, N2. unfold choice_setPropOption_set. rewrite N1, N2. reflexivity.
Qed.
Print Assumptions C48_set_overload.

(** ** C49 *)
Theorem C49_extension : forall p rules path dir core ext,
  getPropOption p $"ALLOWED_FILE_EXT" = Ok rules -> path_is path dir core ext ->
  ((exists r, In r rules /\ matches r ext) -> ext_propValid path p = Ok p) /\
  ((forall r, In r rules -> ~ matches r ext) -> ext_propValid path p = Throw InvalidArgument).
Proof.
  intros. destruct (ext_valid p rules path dir core ext) as [V1 V2]; auto. split; auto.
  intros N. apply V2. intros (r & I & M). exact (N r I M).
Qed.
Print Assumptions C49_extension.
(** every path has such a decomposition, and only one *)
Theorem C49_every_path : forall path, exists dir core ext, path_is path dir core ext.
Proof. exact path_is_exists. Qed.
Print Assumptions C49_every_path.
Theorem C49_unique : forall path d c e d' c' e', path_is path d c e -> path_is path d' c' e' -> d = d' /\ c = c' /\ e = e'.
Proof.
  intros path d c e d' c' e' (f & E & Hd & Hf & Hs) (f' & E' & Hd' & Hf' & Hs').
  assert (A : Ok d = Ok d') by (transitivity (getPath path); [rewrite E; symmetry|rewrite E']; apply getPath_ok; auto).
  inversion A; subst d'. rewrite E' in E. apply app_inv_head in E. subst f'.
  destruct (dot_last _ _ _ Hs) as [A1 A2], (dot_last _ _ _ Hs') as [B1 B2].
  rewrite A1 in B1. rewrite A2 in B2. inversion B1; inversion B2; auto.
Qed.
Print Assumptions C49_unique.
(** the constructor takes exactly the well formed rules, and stores them *)
Theorem C49_configuration : forall rules,
  (Forall ext_rule rules -> exists p, PropertyFileExt_set rules = Ok p /\ getPropOption p $"ALLOWED_FILE_EXT" = Ok rules) /\
  (~ Forall ext_rule rules -> PropertyFileExt_set rules = Throw InvalidArgument).
Proof.
  intros rules. destruct (checks_all rules ext_checkExt ext_rule checkExt_iff rule_dec) as [C1 C2].
  unfold PropertyFileExt_set. split; intros H.
  - rewrite C1 by auto. eexists. split; reflexivity.
  - rewrite C2 by auto. reflexivity.
Qed.
Print Assumptions C49_configuration.
Example C49_example : path_is $"/a.b/run.v2.log" $"/a.b/" $"run.v2" $".log" /\ matches $".log" $".log" /\
  ~ matches $".log" $".v2" /\ Forall ext_rule [$".log"; $"*"; $".7"].
Proof.
  split; [|split; [|split]].
  - exists $"run.v2.log". split; [reflexivity|]. split; [|split; [|split; [reflexivity|]]].
    + right. exists $"/a.b". reflexivity.
    + intros H. cbn in H. intuition discriminate.
    + right. exists $"log". split; auto. intros H. cbn in H. intuition discriminate.
  - now right.
  - intros [(t & H)|H]; discriminate.
  - unfold ext_rule. constructor; [|constructor; [|constructor; [|constructor]]].
    + right; right. exists $"log". split; auto. intros H. cbn in H. intuition discriminate.
    + right; left. exists []; auto.
    + right; right. exists $"7". split; auto. intros H. cbn in H. intuition discriminate.
Qed.

(** ** C50 *)
Theorem C50_sisters : forall E p exts path dir core ext,
  getPropOption p $"ALLOWED_SISTER_FILE_EXT" = Ok exts -> ~ In $"NOT_DEFINED" exts -> path_is path dir core ext ->
  exists p', sister_propValid E path p = Ok p' /\
    getPropOption p' $"SISTER_FILE_NAME" = Ok (map (fun e => core ++ e) exts) /\
    getPropOption p' $"SISTER_FILE_PATH" = Ok (map (fun _ => dir) exts) /\
    getPropOption p' $"SISTER_FILE_PATH_NAME" = Ok (map (fun e => dir ++ core ++ e) exts) /\
    getPropOption p' $"SISTER_FILE_EXISTS" =
      Ok (map (fun e => if file_exists E (dir ++ core ++ e) then $"true" else $"false") exts).
Proof.
  intros E p exts path dir core ext G N H.
  destruct (sister_valid E p exts path dir core ext G H) as (p' & E1 & _ & _ & E2 & E3 & E4 & E5).
  assert (F : filter (fun e => negb (str_eqb e NOT_DEFINED)) exts = exts).
  { clear - N. induction exts as [|e t IH]; auto. cbn [filter].
    destruct (str_eqb_spec e NOT_DEFINED) as [->|Ne]; [exfalso; apply N; now left|]. cbn [negb].
    rewrite IH; auto. intros I; apply N; now right. }
  rewrite F in *. exists p'. repeat split; auto.
Qed.
Print Assumptions C50_sisters.
(** which extensions may be configured *)
Theorem C50_configuration : forall exts p,
  (Forall (fun e => e = [] \/ exists t, e = "."%char :: t /\ ~ In "."%char t) exts ->
     exists p', sister_setPropOption_vec $"ALLOWED_SISTER_FILE_EXT" exts p = Ok p' /\
                getPropOption p' $"ALLOWED_SISTER_FILE_EXT" = Ok exts) /\
  (~ Forall (fun e => e = [] \/ exists t, e = "."%char :: t /\ ~ In "."%char t) exts ->
     sister_setPropOption_vec $"ALLOWED_SISTER_FILE_EXT" exts p = Throw InvalidArgument).
Proof.
  intros exts p.
  set (R := fun e : str => e = [] \/ exists t, e = "."%char :: t /\ ~ In "."%char t).
  assert (A : forall e, (R e /\ sister_checkExt e = Ok tt) \/ (~ R e /\ sister_checkExt e = Throw InvalidArgument)).
  { intros e. unfold sister_checkExt. destruct (ext_exists e) as (core & ext & Hs).
    destruct (dot_last _ _ _ Hs) as [E1 _]. rewrite E1. cbn [bind]. destruct Hs as [Eq D].
    destruct core as [|c core].
    - left. split; [|reflexivity]. simpl in Eq. subst ext. destruct D as [[-> _]|(t & -> & H)]; [now left|right; eauto].
    - right. split; [|reflexivity]. intros [->|(t & -> & H)]; [discriminate|]. inversion Eq; subst.
      destruct D as [[-> D]|(t' & -> & D)]; [apply D; now left|]. apply H. apply in_or_app; right; now left. }
  destruct (checks_all exts sister_checkExt R) as [C1 C2].
  { intros e. destruct (A e) as [[H1 H2]|[H1 H2]]; split; intros; auto; contradiction. }
  { intros e. destruct (A e) as [[H1 H2]|[H1 H2]]; auto. }
  unfold sister_setPropOption_vec. change (str_eqb _ _) with true. cbv iota. split; intros H.
  - rewrite C1 by auto. eexists. split; [reflexivity|]. apply get_set.
  - rewrite C2 by auto. reflexivity.
Qed.
Print Assumptions C50_configuration.
Example C50_example : path_is $"d/run.log" $"d/" $"run" $".log" /\ ~ In $"NOT_DEFINED" [$".orb"; $".7"; $".pun"].
Proof.
  split.
  - exists $"run.log". split; [reflexivity|]. split; [|split; [|split; [reflexivity|]]].
    + right. exists $"d". reflexivity.
    + intros H. cbn in H. intuition discriminate.
    + right. exists $"log". split; auto. intros H. cbn in H. intuition discriminate.
  - intros H. cbn in H. intuition discriminate.
Qed.

(** ** C51 *)
(** A file that must exist is accepted exactly if it exists; one that need not is always accepted. *)
Theorem C51_accepts : forall E p must does path,
  getPropOption p $"FILE_MUST_EXIST" = Ok must -> getPropOption p $"FILE_DOES_EXIST" = Ok does ->
  (must = 0 \/ file_exists E path = true -> exists p', exist_propValid E path p = Ok p') /\
  (must <> 0 /\ file_exists E path = false -> exist_propValid E path p = Throw InvalidArgument).
Proof.
  intros. destruct (exist_valid E p must does path) as [V1 V2]; auto. split; auto.
  intros K. destruct (V1 K) as (p' & E1 & _). eauto.
Qed.
Print Assumptions C51_accepts.
(** full property: after any history of checks FILE_DOES_EXIST says whether the
    LAST accepted file exists.  Proved: it says whether ANY checked file
    existed ([must] is kept, rejected checks leave the property as it was). *)
Theorem C51_history_partial : forall E paths p must,
  getPropOption p $"FILE_MUST_EXIST" = Ok must -> getPropOption p $"FILE_DOES_EXIST" = Ok 0 ->
  let p' := fold_left (fun q path => match exist_propValid E path q with Ok q' => q' | _ => q end) paths p in
  getPropOption p' $"FILE_MUST_EXIST" = Ok must /\
  ((exists path, In path paths /\ file_exists E path = true) -> getPropOption p' $"FILE_DOES_EXIST" = Ok 1) /\
  ((forall path, In path paths -> file_exists E path = false) -> getPropOption p' $"FILE_DOES_EXIST" = Ok 0).
Proof.
  intros E paths p must H1 H2.
  assert (A : forall does q, getPropOption q $"FILE_MUST_EXIST" = Ok must -> getPropOption q $"FILE_DOES_EXIST" = Ok does ->
    let p' := fold_left (fun q path => match exist_propValid E path q with Ok q' => q' | _ => q end) paths q in
    getPropOption p' $"FILE_MUST_EXIST" = Ok must /\
    getPropOption p' $"FILE_DOES_EXIST" = Ok (if existsb (file_exists E) paths then 1 else does)).
  { clear. induction paths as [|x t IH]; intros does q H1 H2; [simpl; auto|]. cbn [fold_left existsb].
    destruct (exist_valid E q must does x H1 H2) as [V1 V2].
    destruct (Z.eq_dec must 0) as [->|N].
    - destruct V1 as (q' & E1 & _ & G1 & G2); auto. rewrite E1.
      destruct (IH _ q' G1 G2) as [I1 I2]. split; auto. rewrite I2. destruct (file_exists E x), (existsb _ t); auto.
    - destruct (file_exists E x) eqn:F.
      + destruct V1 as (q' & E1 & _ & G1 & G2); auto. rewrite E1.
        destruct (IH _ q' G1 G2) as [I1 I2]. split; auto. rewrite I2. destruct (existsb _ t); auto.
      + rewrite V2 by auto. apply IH; auto. }
  destruct (A 0 p H1 H2) as [A1 A2]. cbv zeta in *. split; [exact A1|]. split.
  - intros (x & I & F). rewrite A2. replace (existsb (file_exists E) paths) with true; auto.
    symmetry. apply existsb_exists. eauto.
  - intros F. rewrite A2. replace (existsb (file_exists E) paths) with false; auto.
    symmetry. apply not_true_iff_false. intros K. apply existsb_exists in K as (x & I & K). rewrite F in K; auto. discriminate.
Qed.
Print Assumptions C51_history_partial.
(** hence the refutation: whenever one file exists and another does not *)
Theorem C51_last_file_refuted : forall E there missing, file_exists E there = true -> file_exists E missing = false ->
  exists p1 p2, exist_propValid E there PropertyFileExist = Ok p1 /\ exist_propValid E missing p1 = Ok p2 /\
    getPropOption p2 $"FILE_DOES_EXIST" = Ok 1.
Proof.
  intros E x y Hx Hy. unfold exist_propValid at 1. cbn. rewrite Hx. eexists _, _. split; [reflexivity|].
  unfold exist_propValid. cbn. rewrite Hy. split; reflexivity.
Qed.
Print Assumptions C51_last_file_refuted.
(** the check after parsing fails exactly when the file had to exist and none was found *)
Theorem C51_post_check : forall p must does,
  getPropOption p $"FILE_MUST_EXIST" = Ok must -> getPropOption p $"FILE_DOES_EXIST" = Ok does ->
  (must <> 0 /\ does = 0 -> exist_postCheck p = Throw RuntimeError) /\ (must = 0 \/ does <> 0 -> exist_postCheck p = Ok tt).
Proof.
  intros p must does H1 H2. unfold exist_postCheck. rewrite H1, H2. cbn [bind].
  destruct (Z.eqb_spec must 0), (Z.eqb_spec does 0); simpl; split; intros; auto; lia.
Qed.
Print Assumptions C51_post_check.
(** and fails in a third way for a property built with PropertyFileExist(int): it has no FILE_DOES_EXIST option yet *)
Theorem C51_int_constructor_refuted : forall must, exist_postCheck (PropertyFileExist_int must) = Throw InvalidArgument.
Proof. reflexivity. Qed.
Print Assumptions C51_int_constructor_refuted.
(** its argument is what it says it is: with PropertyFileExist(must) a missing file is accepted only for must = 0 *)
Theorem C51_int_constructor : forall E must path,
  (file_exists E path = true -> exists p, exist_propValid E path (PropertyFileExist_int must) = Ok p /\ exist_postCheck p = Ok tt) /\
  (file_exists E path = false -> exist_propValid E path (PropertyFileExist_int must) = if must =? 0 then Ok (PropertyFileExist_int must) else Throw InvalidArgument).
Proof.
  intros E must path. unfold exist_propValid. change (getPropOption (PropertyFileExist_int must) $"FILE_MUST_EXIST") with (Ok must). cbn [bind].
  split; intros ->; destruct (Z.eqb_spec must 0) as [-> | N]; cbn [negb]; auto.
  - eexists. split; [reflexivity|]. reflexivity.
  - eexists. split; [reflexivity|]. destruct must; reflexivity.
Qed.
Print Assumptions C51_int_constructor.
Example C51_example : getPropOption PropertyFileExist $"FILE_MUST_EXIST" = Ok 0 /\
  getPropOption PropertyFileExist $"FILE_DOES_EXIST" = Ok 0.
Proof. split; reflexivity. Qed.

(** ** C77 *)
(** full property: a text that is not entirely an integer is rejected.  False:
    whatever follows the digits is ignored, for every int and every tail. *)
Theorem C77_garbage_accepted_refuted : forall blanks z tail, is_int z -> white blanks ->
  (forall c t, tail = c :: t -> ~ In c $"0123456789") -> stoi (blanks ++ dec z ++ tail) = Ok z.
Proof.
  intros w z t I W N. rewrite stoi_dec_gen; auto; [now rewrite (proj2 (is_intb_true z))|].
  intros c u E. specialize (N c u E). clear - N. destruct c as [[] [] [] [] [] [] [] []]; vm_compute in *; auto; tauto.
Qed.
Print Assumptions C77_garbage_accepted_refuted.
(** proved: a text whose first character after blanks and sign is not a digit is rejected *)
Theorem C77_no_number_partial : forall blanks sign s, white blanks -> sign = [] \/ sign = $"-" \/ sign = $"+" ->
  (forall c t, s = c :: t -> ~ In c $"0123456789" /\ ~ In c spaces /\ ~ In c $"+-") ->
  stoi (blanks ++ sign ++ s) = Throw InvalidArgument.
Proof.
  intros w g s W G N. unfold stoi. rewrite drop_while_app_all by (intros c Hc; apply is_space_in; auto).
  assert (D : forall c t, s = c :: t -> is_digit c = false /\ is_space c = false /\ Ascii.eqb c "-" = false /\ Ascii.eqb c "+" = false).
  { intros c t E. destruct (N c t E) as (N1 & N2 & N3). repeat split.
    - clear - N1. destruct c as [[] [] [] [] [] [] [] []]; vm_compute in *; auto; tauto.
    - now apply is_space_nin.
    - apply Ascii.eqb_neq. intros ->. apply N3. cbn; auto.
    - apply Ascii.eqb_neq. intros ->. apply N3. cbn; auto. }
  destruct G as [->|[->| ->]]; destruct s as [|c t]; try reflexivity; destruct (D c t eq_refl) as (D1 & D2 & D3 & D4).
  - cbn [app drop_while]. rewrite D2, D3, D4, D1. reflexivity.
  - cbn [app drop_while list_ascii_of_string]. change (is_space "-"%char) with false. cbv iota.
    change (Ascii.eqb "-" "-") with true. cbv iota. rewrite D1. reflexivity.
  - cbn [app drop_while list_ascii_of_string]. change (is_space "+"%char) with false. cbv iota.
    change (Ascii.eqb "+" "-") with false. change (Ascii.eqb "+" "+") with true. cbv iota. rewrite D1. reflexivity.
Qed.
Print Assumptions C77_no_number_partial.
Example C77_example : stoi $" 3x" = Ok 3 /\ stoi $"-2.9" = Ok (-2) /\ stoi $"x3" = Throw InvalidArgument /\ stoi $"-" = Throw InvalidArgument.
Proof. repeat split. Qed.
(** Every text, exactly.  [numeral ds]: the text of the decimal digits ds;
    [number ds]: the number they denote. *)
Definition numeral (ds : list Z) : str := map (fun d => nth (Z.to_nat d) $"0123456789" "000"%char) ds.
Definition number (ds : list Z) : Z := fold_left (fun a d => a * 10 + d) ds 0.
Record int_text (s blanks sign : str) (ds : list Z) (tail : str) : Prop := {
  it_text : s = blanks ++ sign ++ numeral ds ++ tail;
  it_blanks : white blanks;
  it_sign : sign = [] \/ sign = $"-" \/ sign = $"+";
  it_digits : Forall (fun d => 0 <= d < 10) ds;
  it_stop : forall c t, tail = c :: t -> ~ In c $"0123456789";
  it_bare : sign = [] -> ds = [] -> forall c t, tail = c :: t -> ~ In c spaces /\ ~ In c $"+-" }.
(** every text is of this form *)
Theorem C77_every_text : forall s, exists blanks sign ds tail, int_text s blanks sign ds tail.
Proof.
  assert (Hd : forall s, exists ds tail, s = numeral ds ++ tail /\ Forall (fun d => 0 <= d < 10) ds /\
    forall c t, tail = c :: t -> ~ In c $"0123456789").
  { induction s as [|c s IH].
    - exists [], []. repeat split; auto. intros; discriminate.
    - destruct (in_dec Ascii.ascii_dec c $"0123456789") as [H|H].
      + destruct IH as (ds & t & -> & F & N). apply In_nth with (d := "000"%char) in H. destruct H as (n & Hn & En).
        exists (Z.of_nat n :: ds), t. split; [|split; auto].
        * cbn [numeral map app]. rewrite Nat2Z.id, En. reflexivity.
        * constructor; auto. change (length $"0123456789") with 10%nat in Hn. lia.
      + exists [], (c :: s). repeat split; auto. intros c' t' E. inversion E; subst. auto. }
  assert (Hb : forall s, exists blanks r, s = blanks ++ r /\ white blanks /\ forall c t, r = c :: t -> ~ In c spaces).
  { induction s as [|c s IH].
    - exists [], []. repeat split; auto; intros ? []; discriminate.
    - destruct (in_dec Ascii.ascii_dec c spaces) as [H|H].
      + destruct IH as (b & r & -> & W & N). exists (c :: b), r. split; auto. split; auto.
        intros x [<-|Hx]; auto.
      + exists [], (c :: s). repeat split; auto; [intros ? []|]. intros c' t' E. inversion E; subst. auto. }
  intros s. destruct (Hb s) as (b & r & -> & W & N).
  destruct r as [|c r].
  - exists b, [], [], []. constructor; auto; intros; discriminate.
  - destruct (in_dec Ascii.ascii_dec c $"+-") as [H|H].
    + destruct (Hd r) as (ds & t & -> & F & N'). exists b, [c], ds, t.
      assert (C : c = "-"%char \/ c = "+"%char) by (clear - H; cbn in H; intuition auto).
      constructor; auto; [destruct C as [-> | ->]; auto|intros E; discriminate].
    + destruct (Hd (c :: r)) as (ds & t & E & F & N'). exists b, [], ds, t.
      constructor; auto; [rewrite E; reflexivity|].
      intros _ -> c' t' Et. cbn [numeral map app] in E. rewrite Et in E. inversion E; subst. split; auto. apply (N c' t'); auto.
Qed.
Print Assumptions C77_every_text.
(** what the conversion does with it: no digit - rejected; otherwise the number
    before the first character that is not a digit, rejected when it is no int *)
Theorem C77_exact_partial : forall s blanks sign ds tail, int_text s blanks sign ds tail ->
  let v := if str_eqb sign $"-" then - number ds else number ds in
  (ds = [] -> stoi s = Throw InvalidArgument) /\
  (ds <> [] -> is_int v -> stoi s = Ok v) /\
  (ds <> [] -> ~ is_int v -> stoi s = Throw OutOfRange).
Proof.
  intros s w g ds t [-> W G F N B]. cbv zeta.
  assert (En : forall ds, Forall (fun d => 0 <= d < 10) ds -> numeral ds = map digit ds).
  { clear. intros ds F. apply map_ext_in. intros d Hd. rewrite Forall_forall in F. specialize (F d Hd).
    assert (K : d = 0 \/ d = 1 \/ d = 2 \/ d = 3 \/ d = 4 \/ d = 5 \/ d = 6 \/ d = 7 \/ d = 8 \/ d = 9) by lia.
    repeat (destruct K as [->|K]; [reflexivity|]). subst. reflexivity. }
  assert (St : stops t).
  { intros c u E. specialize (N c u E). clear - N. destruct c as [[] [] [] [] [] [] [] []]; vm_compute in *; auto; tauto. }
  rewrite En by auto. unfold stoi. rewrite drop_while_app_all by (intros c Hc; apply is_space_in; auto).
  assert (Main : forall sg, (ds = [] -> match map digit ds ++ t with
      | c :: _ => if is_digit c then let v := sg * digits_val 0 (map digit ds ++ t) in if is_intb v then Ok v else Throw OutOfRange else Throw InvalidArgument
      | [] => Throw InvalidArgument end = Throw InvalidArgument) /\
    (ds <> [] -> match map digit ds ++ t with
      | c :: _ => if is_digit c then let v := sg * digits_val 0 (map digit ds ++ t) in if is_intb v then Ok v else Throw OutOfRange else Throw InvalidArgument
      | [] => Throw InvalidArgument end = if is_intb (sg * number ds) then Ok (sg * number ds) else Throw OutOfRange)).
  { intros sg. split.
    - intros ->. cbn [map app]. destruct t as [|c u]; auto. rewrite (St c u) by auto. auto.
    - intros Hne. rewrite digits_val_map by auto. rewrite digits_val_stop by auto. fold (number ds).
      destruct ds as [|d ds]; [congruence|]. cbn [map app]. inversion F; subst. destruct (digit_facts d H1) as (E1 & _).
      rewrite E1. reflexivity. }
  assert (Fin : forall (x : outcome Z) sg v, sg * number ds = v -> (ds = [] -> x = Throw InvalidArgument) /\
     (ds <> [] -> x = if is_intb (sg * number ds) then Ok (sg * number ds) else Throw OutOfRange) ->
     (ds = [] -> x = Throw InvalidArgument) /\ (ds <> [] -> is_int v -> x = Ok v) /\ (ds <> [] -> ~ is_int v -> x = Throw OutOfRange)).
  { intros x sg v <- [X Y]. split; [auto|]. split; intros H1 H2; rewrite (Y H1).
    - apply is_intb_true in H2. rewrite H2. auto.
    - apply is_intb_false in H2. rewrite H2. auto. }
  destruct G as [->|[->| ->]].
  - assert (E1 : drop_while is_space ([] ++ map digit ds ++ t) = map digit ds ++ t /\ forall c u, map digit ds ++ t = c :: u -> Ascii.eqb c "-" = false /\ Ascii.eqb c "+" = false).
    { cbn [app]. destruct ds as [|d ds]; cbn [map app].
      - destruct t as [|c u]; [split; auto; intros; discriminate|]. destruct (B eq_refl eq_refl c u eq_refl) as [B1 B2].
        cbn [drop_while]. rewrite (proj2 (is_space_nin c) B1). split; auto. intros c' u' E. inversion E; subst c' u'.
        split; apply Ascii.eqb_neq; intros ->; apply B2; cbn; auto.
      - inversion F; subst. destruct (digit_facts d H1) as (_ & _ & E3 & E4 & E5). cbn [drop_while]. rewrite E3. split; auto.
        intros c' u' E. inversion E; subst c' u'. auto. }
    destruct E1 as [E1 E2]. rewrite E1. change (str_eqb [] $"-") with false. cbv iota.
    apply (Fin _ 1 _ (Z.mul_1_l _)). specialize (Main 1).
    destruct (map digit ds ++ t) as [|c u]; [exact Main|]. destruct (E2 c u eq_refl) as [-> ->]. exact Main.
  - change (str_eqb $"-" $"-") with true. cbv iota. apply (Fin _ (-1)); [lia|]. exact (Main (-1)).
  - change (str_eqb $"+" $"-") with false. cbv iota. apply (Fin _ 1 _ (Z.mul_1_l _)). exact (Main 1).
Qed.
Print Assumptions C77_exact_partial.
Example C77_exact_example : int_text $" -007.5" $" " $"-" [0; 0; 7] $".5" /\ stoi $" -007.5" = Ok (-7) /\ stoi $"- 7" = Throw InvalidArgument.
Proof.
  split; [|split; reflexivity]. constructor.
  - reflexivity.
  - intros c [<-|[]]. now left.
  - auto.
  - repeat constructor; lia.
  - intros c t E. inversion E; subst. cbn. intros H. repeat (destruct H as [H|H]; [discriminate|]). auto.
  - discriminate.
Qed.
