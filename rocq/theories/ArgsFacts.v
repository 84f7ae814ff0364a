From Verif Require Export StrFacts ArgsSpec ArgsModel.
Open Scope Z_scope.

(** ** maps *)
Lemma find_set_eq {V} k (v : V) m : m_find k (m_set k v m) = Some v.
Proof.
  induction m as [|[k' v'] t IH]; simpl; [rewrite str_eqb_refl; auto|].
  destruct (str_eqb k k') eqn:E; simpl; [rewrite str_eqb_refl; auto|].
  destruct (str_ltb k k'); simpl; [rewrite str_eqb_refl; auto|]. rewrite E; auto.
Qed.
Lemma find_set_ne {V} k k' (v : V) m : k <> k' -> m_find k (m_set k' v m) = m_find k m.
Proof.
  intros N. apply str_eqb_neq in N. induction m as [|[k2 v2] t IH]; simpl; [rewrite N; auto|].
  destruct (str_eqb k' k2) eqn:E; simpl.
  - apply str_eqb_eq in E. subst k2. rewrite N. auto.
  - destruct (str_ltb k' k2); simpl; [rewrite N; auto|]. destruct (str_eqb k k2); auto.
Qed.
Lemma find_set {V} k k' (v : V) m : m_find k (m_set k' v m) = if str_dec k k' then Some v else m_find k m.
Proof. destruct (str_dec k k') as [->|N]; [apply find_set_eq|apply find_set_ne; auto]. Qed.

Lemma existsb_str k l : existsb (str_eqb k) l = true <-> In k l.
Proof.
  rewrite existsb_exists. split; [intros (x & H & E)|intros H; exists k; split; auto using str_eqb_refl].
  apply str_eqb_eq in E. congruence.
Qed.
Lemma existsb_str_false k l : existsb (str_eqb k) l = false <-> ~ In k l.
Proof. rewrite <- existsb_str. destruct (existsb (str_eqb k) l); split; congruence. Qed.

Lemma in_s_insert k x l : In x (s_insert k l) <-> x = k \/ In x l.
Proof.
  induction l as [|y t IH]; simpl.
  - intuition.
  - destruct (str_eqb_spec k y) as [->|N]; simpl; [intuition|].
    destruct (str_ltb k y); simpl; [intuition|]. rewrite IH. intuition.
Qed.
Lemma in_fold_insert x l : forall s, In x (fold_left (fun s k => s_insert k s) l s) <-> In x l \/ In x s.
Proof.
  induction l as [|k t IH]; simpl; intros s; [tauto|]. rewrite IH, in_s_insert. intuition.
Qed.
Lemma in_set_of x l : In x (set_of l) <-> In x l.
Proof. unfold set_of. rewrite in_fold_insert. simpl. tauto. Qed.

(** ** properties *)
Section PropFacts.
Context {T : Type}.
Implicit Types (p : prop T).
Lemma get_set p k v : getPropOption (setPropOption_ k v p) k = Ok v.
Proof. unfold getPropOption, setPropOption_; simpl. now rewrite find_set_eq. Qed.
Lemma get_set_ne p k k' v : k <> k' -> getPropOption (setPropOption_ k' v p) k = getPropOption p k.
Proof. intros. unfold getPropOption, setPropOption_; simpl. now rewrite find_set_ne. Qed.
Lemma set_known p k v w : getPropOption p k = Ok w -> setPropOption k v p = Ok (setPropOption_ k v p).
Proof.
  unfold getPropOption, setPropOption, propOptionValid_, m_has. destruct (m_find k (p_options p)); auto; discriminate.
Qed.
Lemma set_unknown p k v : m_find k (p_options p) = None -> setPropOption k v p = Throw InvalidArgument.
Proof. unfold setPropOption, propOptionValid_, m_has. intros ->; auto. Qed.
Lemma kind_set p k v : p_kind (setPropOption_ k v p) = p_kind p. Proof. auto. Qed.
End PropFacts.

(** a history of settings of options a property has *)
Lemma settings_ok {T} (l : list (str * T)) : forall (p : prop T),
  (forall k v, In (k, v) l -> exists w, getPropOption p k = Ok w) ->
  exists p', for_each l (fun kv => setPropOption (fst kv) (snd kv)) p = Ok p' /\ p_kind p' = p_kind p /\
    forall k d, getPropOption p k = Ok d -> getPropOption p' k = Ok (last_given k d l).
Proof.
  induction l as [|[k v] t IH]; intros p H; simpl.
  - exists p; auto.
  - destruct (H k v (or_introl eq_refl)) as [w Hw]. rewrite (set_known _ _ _ _ Hw). simpl.
    destruct (IH (setPropOption_ k v p)) as (p' & E & K & G).
    { intros k2 v2 H2. destruct (H k2 v2 (or_intror H2)) as [w2 Hw2].
      destruct (str_dec k2 k) as [->|N]; [exists v; apply get_set|exists w2; rewrite get_set_ne; auto]. }
    exists p'. split; auto. split; auto. intros k2 d Hd. destruct (str_dec k2 k) as [->|N].
    + apply G. apply get_set.
    + apply G. rewrite get_set_ne; auto.
Qed.

(** ** stoi *)
Lemma digit_facts d : 0 <= d < 10 -> is_digit (digit d) = true /\ digit_val (digit d) = d /\ is_space (digit d) = false /\
  Ascii.eqb (digit d) "-" = false /\ Ascii.eqb (digit d) "+" = false.
Proof.
  intros H. assert (K : d = 0 \/ d = 1 \/ d = 2 \/ d = 3 \/ d = 4 \/ d = 5 \/ d = 6 \/ d = 7 \/ d = 8 \/ d = 9) by lia.
  repeat (destruct K as [->|K]; [repeat split|]). subst. repeat split.
Qed.
Definition stops (s : str) : Prop := forall c t, s = c :: t -> is_digit c = false.
Lemma digits_val_stop a s : stops s -> digits_val a s = a.
Proof. destruct s as [|c t]; simpl; auto. intros H. now rewrite (H c t). Qed.


(** the digits of a number, as a list *)
Lemma dec_loop_digits fuel : forall z acc, (0 <= z < 2 ^ Z.of_nat fuel) -> (0 < fuel)%nat ->
  exists ds, dec_loop fuel z acc = map digit ds ++ acc /\ ds <> [] /\ Forall (fun d => 0 <= d < 10) ds /\
    fold_left (fun a d => a * 10 + d) ds 0 = z.
Proof.
  induction fuel as [|n IH]; intros z acc Hz Hf; [lia|]. cbn [dec_loop].
  destruct (Z.ltb_spec z 10).
  - exists [z]. repeat split; auto; try congruence. repeat constructor; lia.
  - assert (Hq : 0 <= z / 10 < 2 ^ Z.of_nat n).
    { split; [apply Z.div_pos; lia|]. rewrite Nat2Z.inj_succ, Z.pow_succ_r in Hz by lia.
      apply Z.div_lt_upper_bound; lia. }
    destruct n as [|n'].
    { simpl in Hz. lia. }
    destruct (IH (z / 10) (digit (z mod 10) :: acc) Hq) as (ds & E & N & F & V); [lia|].
    exists (ds ++ [z mod 10]). rewrite E. repeat split.
    + rewrite map_app, <- app_assoc. auto.
    + destruct ds; discriminate.
    + apply Forall_app. split; auto. constructor; auto. apply Z.mod_pos_bound; lia.
    + rewrite fold_left_app, V. simpl. pose proof (Z.div_mod z 10). lia.
Qed.
Lemma dec_nonneg_digits z : 0 <= z -> exists ds, dec_nonneg z = map digit ds /\ ds <> [] /\ Forall (fun d => 0 <= d < 10) ds /\
    fold_left (fun a d => a * 10 + d) ds 0 = z.
Proof.
  intros H. unfold dec_nonneg.
  destruct (dec_loop_digits (S (Z.to_nat (Z.log2 z))) z []) as (ds & E & R).
  - split; auto. destruct (Z.eq_dec z 0) as [->|N]; [simpl; lia|].
    rewrite Nat2Z.inj_succ, Z2Nat.id by apply Z.log2_nonneg. apply Z.log2_spec; lia.
  - lia.
  - exists ds. rewrite E, app_nil_r. auto.
Qed.
Lemma digits_val_map ds : forall a s, Forall (fun d => 0 <= d < 10) ds ->
  digits_val a (map digit ds ++ s) = digits_val (fold_left (fun a d => a * 10 + d) ds a) s.
Proof.
  induction ds as [|d ds IH]; intros a s F; cbn [map app digits_val fold_left]; auto. inversion F; subst.
  destruct (digit_facts d H1) as (E1 & E2 & _). rewrite E1, E2. apply IH; auto.
Qed.
(** stoi reads white space, the number, and ignores anything not beginning with a digit *)
Lemma stoi_dec_gen w z t : white w -> stops t ->
  stoi (w ++ dec z ++ t) = if is_intb z then Ok z else Throw OutOfRange.
Proof.
  intros Hw Ht. unfold stoi.
  rewrite drop_while_app_all by (intros c Hc; apply is_space_in; auto).
  unfold dec. destruct (Z.ltb_spec z 0) as [Hz|Hz].
  - destruct (dec_nonneg_digits (- z)) as (ds & E & N & F & V); [lia|]. rewrite E.
    cbn [app drop_while]. change (is_space "-"%char) with false. cbv iota.
    change (Ascii.eqb "-" "-") with true. cbv iota.
    destruct ds as [|d ds]; [congruence|]. cbn [map app].
    inversion F; subst. destruct (digit_facts d H1) as (E1 & _). rewrite E1. cbv zeta.
    change (digit d :: map digit ds ++ t) with (map digit (d :: ds) ++ t).
    rewrite digits_val_map by auto. rewrite V, digits_val_stop by auto.
    replace (-1 * - z) with z by lia. auto.
  - destruct (dec_nonneg_digits z) as (ds & E & N & F & V); [lia|]. rewrite E.
    destruct ds as [|d ds]; [congruence|]. cbn [map app].
    inversion F; subst. destruct (digit_facts d H1) as (E1 & _ & E3 & E4 & E5). cbn [drop_while]. rewrite E3, E4, E5, E1.
    cbv zeta. change (digit d :: map digit ds ++ t) with (map digit (d :: ds) ++ t).
    rewrite digits_val_map by auto. rewrite digits_val_stop by auto. rewrite Z.mul_1_l. auto.
Qed.
Lemma is_intb_true z : is_intb z = true <-> is_int z.
Proof. unfold is_intb, is_int. rewrite andb_true_iff, !Z.leb_le. tauto. Qed.
Lemma is_intb_false z : is_intb z = false <-> ~ is_int z.
Proof. rewrite <- is_intb_true. destruct (is_intb z); split; congruence. Qed.

(** ** int argument *)
Lemma int_valid lo hi p v : getPropOption p $"MIN" = Ok lo -> getPropOption p $"MAX" = Ok hi ->
  (lo <= v <= hi -> int_propValid v p = Ok p) /\ (~ lo <= v <= hi -> int_propValid v p = Throw InvalidArgument).
Proof.
  intros H1 H2. unfold int_propValid. rewrite H1, H2. simpl.
  destruct (Z.ltb_spec v lo), (Z.ltb_spec hi v); split; intros; auto; lia.
Qed.
Lemma set_in_one {T} property option v (p : prop T) : property = prop_name (p_kind p) ->
  set_in property option v [p] = (p' <- setPropOption option v p ;; Ok (true, [p'])).
Proof. intros ->. simpl. rewrite str_eqb_refl. destruct (setPropOption option v p); auto. Qed.

(** ** string length *)
Lemma string_valid lo hi p s : getPropOption p $"MIN_LENGTH" = Ok lo -> getPropOption p $"MAX_LENGTH" = Ok hi ->
  (lo <= len s <= hi -> string_propValid s p = Ok p) /\ (~ lo <= len s <= hi -> string_propValid s p = Throw InvalidArgument).
Proof.
  intros H1 H2. unfold string_propValid. rewrite H1, H2. simpl.
  destruct (Z.ltb_spec (len s) lo), (Z.ltb_spec hi (len s)); split; intros; auto; lia.
Qed.

(** ** choices *)
Lemma choice_valid p b cs s : getPropOption p $"STRING_CHOICE_ENFORCED" = Ok [b] -> getPropOption p $"STRING_CHOICES" = Ok cs ->
  (b = s_true -> In s cs -> choice_propValid s p = Ok p) /\
  (b = s_true -> ~ In s cs -> choice_propValid s p = Throw InvalidArgument) /\
  (b <> s_true -> choice_propValid s p = Ok p).
Proof.
  intros H1 H2. unfold choice_propValid. rewrite H1, H2. cbn [bind].
  repeat split.
  - intros ->. rewrite str_eqb_refl. intros H. apply existsb_str in H. now rewrite H.
  - intros ->. rewrite str_eqb_refl. intros H. apply existsb_str_false in H. now rewrite H.
  - intros H. apply str_eqb_neq in H. now rewrite H.
Qed.

(** ** extensions *)
Lemma dot_last f core ext : splits_ext f core ext ->
  grabStrBeforeLastOccurance f $"." = Ok core /\ grabStrAfterLastOccuranceInclusive f $"." = Ok ext.
Proof.
  intros [-> [[-> H]|(e & -> & H)]].
  - rewrite app_nil_r. destruct (grab_last_none "." core) as (E1 & _ & _ & E2); auto.
    intros (a & b & ->). apply H. apply in_or_app. right. now left.
  - destruct (grab_last_set $"." core "." e) as (E1 & _ & _ & E2); auto; [now left|].
    intros x Hx [<-|[]]; auto.
Qed.
Lemma ext_exists f : exists core ext, splits_ext f core ext.
Proof.
  destruct (find_last_of $"." f) as [k|] eqn:E.
  - apply find_last_of_some in E as (a & c & b & -> & _ & [<-|[]] & H). exists a, ("."%char :: b). split; auto.
    right. exists b. split; auto. intros I. apply (H _ I). now left.
  - exists f, []. split; [now rewrite app_nil_r|]. left. split; auto. intros I.
    apply (proj1 (find_last_of_none _ _) E _ I). now left.
Qed.
Lemma path_is_exists p : exists dir core ext, path_is p dir core ext.
Proof.
  destruct (path_parts p) as (d & f & -> & Hf & Hd). destruct (ext_exists f) as (c & e & H).
  exists d, c, e, f. repeat split; auto; apply H.
Qed.
Lemma checkExt_iff e : (ext_rule e -> ext_checkExt e = Ok tt) /\ (~ ext_rule e -> ext_checkExt e = Throw InvalidArgument).
Proof.
  unfold ext_checkExt, ext_rule. destruct (str_eqb_spec e []) as [->|N]; [split; auto; intros H; exfalso; auto|].
  destruct e as [|c t]; [congruence|]. cbn [char0]. destruct (Ascii.eqb_spec c "*") as [->|Ns].
  { split; auto. intros H; exfalso; apply H; eauto. }
  destruct (ext_exists (c :: t)) as (core & ext & H). destruct (dot_last _ _ _ H) as [E _]. rewrite E. cbn [bind].
  destruct H as [E2 D]. split.
  - intros [K|[(t' & K)|(t' & K & N2)]]; [congruence|congruence|]. inversion K; subst.
    destruct D as [[-> Hn]|(e & -> & Hn)].
    + exfalso. apply Hn. rewrite app_nil_r in E2. rewrite <- E2. now left.
    + destruct core as [|x core]; auto. exfalso. inversion E2; subst. apply N2. apply in_or_app. right. now left.
  - intros K. destruct core as [|x core]; auto. exfalso. apply K. right; right.
    destruct D as [[-> Hn]|(e & -> & Hn)]; [simpl in E2; congruence|]. simpl in E2. exists e. inversion E2; subst; auto.
Qed.
Lemma rule_dec e : ext_rule e \/ ~ ext_rule e.
Proof.
  destruct (checkExt_iff e) as [_ H]. destruct (ext_checkExt e) as [[]| | | |] eqn:E.
  - left. unfold ext_checkExt in E. revert E. unfold ext_rule.
    destruct (str_eqb_spec e []) as [->|N]; auto. destruct e as [|c t]; [congruence|]. cbn [char0].
    destruct (Ascii.eqb_spec c "*") as [->|Ns]; eauto.
    destruct (ext_exists (c :: t)) as (core & ext & K). destruct (dot_last _ _ _ K) as [E _]. rewrite E. cbn [bind].
    destruct core as [|x core]; [|discriminate]. intros _. right; right. destruct K as [K [[-> _]|(e & -> & Hn)]]; [discriminate|].
    exists e. auto.
  - right. intros R. destruct (checkExt_iff e) as [K _]. rewrite (K R) in E; discriminate.
  - right. intros R. destruct (checkExt_iff e) as [K _]. rewrite (K R) in E; discriminate.
  - right. intros R. destruct (checkExt_iff e) as [K _]. rewrite (K R) in E; discriminate.
  - right. intros R. destruct (checkExt_iff e) as [K _]. rewrite (K R) in E; discriminate.
Qed.
Lemma matches_iff rules ext :
  existsb (fun e => Ascii.eqb (char0 e) "*" || str_eqb e ext) rules = true <-> exists r, In r rules /\ matches r ext.
Proof.
  rewrite existsb_exists. split; intros (r & H & M); exists r; split; auto.
  - apply orb_true_iff in M as [M|M].
    + left. destruct r as [|c t]; [discriminate|]. apply Ascii.eqb_eq in M. simpl in M. subst. eauto.
    + right. now apply str_eqb_eq.
  - apply orb_true_iff. destruct M as [(t & ->)| ->]; [left; reflexivity|right; apply str_eqb_refl].
Qed.
Lemma ext_valid p rules path dir core ext : getPropOption p $"ALLOWED_FILE_EXT" = Ok rules -> path_is path dir core ext ->
  ((exists r, In r rules /\ matches r ext) -> ext_propValid path p = Ok p) /\
  (~ (exists r, In r rules /\ matches r ext) -> ext_propValid path p = Throw InvalidArgument).
Proof.
  intros G (f & -> & Hd & Hf & Hs). unfold ext_propValid. rewrite lastString_ok by auto. cbn [bind].
  destruct (dot_last _ _ _ Hs) as [_ E]. rewrite E. cbn [bind]. unfold extSupported.
  rewrite (proj1 (checkExt_iff ext)); [|unfold ext_rule; destruct Hs as [_ [[-> _]|(e & -> & ?)]]; eauto]. cbn [bind].
  rewrite G. cbn [bind]. rewrite <- matches_iff. destruct (existsb _ rules); split; intros; auto; congruence.
Qed.

Lemma checks_all l (f : str -> outcome unit) (R : str -> Prop) :
  (forall e, (R e -> f e = Ok tt) /\ (~ R e -> f e = Throw InvalidArgument)) -> (forall e, R e \/ ~ R e) ->
  (Forall R l -> for_each l (fun e _ => f e) tt = Ok tt) /\
  (~ Forall R l -> for_each l (fun e _ => f e) tt = Throw InvalidArgument).
Proof.
  intros H D. induction l as [|e t IH]; simpl.
  - split; auto. intros K; exfalso; auto.
  - destruct (H e) as [H1 H2]. destruct (D e) as [R1|R1].
    + rewrite H1 by auto. cbn [bind]. destruct IH as [I1 I2]. split; intros K.
      * apply I1. inversion K; auto.
      * apply I2. intros F. apply K. constructor; auto.
    + rewrite H2 by auto. split; auto. intros K. inversion K; subst. contradiction.
Qed.

(** ** sister files *)
Lemma sister_valid E p exts path dir core ext : getPropOption p $"ALLOWED_SISTER_FILE_EXT" = Ok exts -> path_is path dir core ext ->
  let used := filter (fun e => negb (str_eqb e NOT_DEFINED)) exts in
  exists p', sister_propValid E path p = Ok p' /\ p_kind p' = p_kind p /\
    getPropOption p' $"ALLOWED_SISTER_FILE_EXT" = Ok exts /\
    getPropOption p' $"SISTER_FILE_NAME" = Ok (map (fun e => core ++ e) used) /\
    getPropOption p' $"SISTER_FILE_PATH" = Ok (map (fun _ => dir) used) /\
    getPropOption p' $"SISTER_FILE_PATH_NAME" = Ok (map (fun e => dir ++ core ++ e) used) /\
    getPropOption p' $"SISTER_FILE_EXISTS" = Ok (map (fun e => if file_exists E (dir ++ core ++ e) then s_true else s_false) used).
Proof.
  intros G (f & -> & Hd & Hf & Hs) used. unfold sister_propValid. rewrite lastString_ok, getPath_ok by auto. cbn [bind].
  destruct (dot_last _ _ _ Hs) as [E1 _]. rewrite E1. cbn [bind]. rewrite G. cbn [bind]. fold used.
  eexists; split; [reflexivity|]. split; [reflexivity|].
  assert (N : forall a b, str_eqb a b = false -> a <> b) by (intros; apply str_eqb_neq; auto).
  repeat split;
    repeat (first [rewrite get_set | rewrite get_set_ne by (apply N; reflexivity)]); auto.
  now rewrite map_map.
Qed.

(** ** file existence *)
Definition try {A} (f : A -> outcome A) (a : A) : A := match f a with Ok b => b | _ => a end.
Lemma exist_valid E p must does path : getPropOption p $"FILE_MUST_EXIST" = Ok must -> getPropOption p $"FILE_DOES_EXIST" = Ok does ->
  (must = 0 \/ file_exists E path = true -> exists p', exist_propValid E path p = Ok p' /\ p_kind p' = p_kind p /\
     getPropOption p' $"FILE_MUST_EXIST" = Ok must /\
     getPropOption p' $"FILE_DOES_EXIST" = Ok (if file_exists E path then 1 else does)) /\
  (must <> 0 /\ file_exists E path = false -> exist_propValid E path p = Throw InvalidArgument).
Proof.
  intros H1 H2. unfold exist_propValid. rewrite H1. cbn [bind].
  assert (S1 : getPropOption (setPropOption_ $"FILE_DOES_EXIST" 1 p) $"FILE_MUST_EXIST" = Ok must).
  { rewrite get_set_ne; auto. apply str_eqb_neq; reflexivity. }
  split.
  - intros H. destruct (Z.eqb_spec must 0) as [->|N]; cbn [negb].
    + destruct (file_exists E path) eqn:F; eexists; split; try reflexivity; repeat split; auto. apply get_set.
    + destruct H as [H|H]; [congruence|]. rewrite H. cbn [negb]. eexists; split; try reflexivity; repeat split; auto. apply get_set.
  - intros [N F]. rewrite F. destruct (Z.eqb_spec must 0); [congruence|]. reflexivity.
Qed.
