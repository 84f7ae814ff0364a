(** * calc_J on any input: where undefined behaviour can come from *)
From Verif Require Export MemQc ReaderSafe.
From Verif Require Export ParserCheck.
From Verif Require Export StrSpec StrModel.
Open Scope Z_scope.

(** ** the command line *)
Lemma def_bind {A B} (o : outcome A) (k : A -> outcome B) : defined o -> (forall a, o = Ok a -> defined (k a)) -> defined (bind o k).
Proof. intros H K. destruct o; cbn [bind]; try (intros ? X; discriminate X); auto. intros u' X. injection X as <-. destruct (H u). reflexivity. Qed.
Ltac nou := let Q := fresh in intros ? Q; discriminate Q.
Lemma def_each {A S0} (I : S0 -> Prop) l : forall (body : A -> S0 -> outcome S0) s, I s -> (forall a s, I s -> defined (body a s)) -> (forall a s s', I s -> body a s = Ok s' -> I s') -> defined (for_each l body s).
Proof. induction l as [|a l IH]; intros body s Is H K; cbn [for_each]; [nou|]. apply def_bind; eauto. Qed.
Lemma def_all {A S0} l (body : A -> S0 -> outcome S0) s : (forall a s, defined (body a s)) -> defined (for_each l body s).
Proof. intros H. apply (def_each (fun _ => True)); auto. Qed.
Create HintDb def.
Ltac def1 := match goal with
| |- defined (bind _ _) => apply def_bind; [|intros ? _]
| |- defined (for_each _ _ _) => apply def_all; intros ? ?
| |- defined (Ok _) => nou
| |- defined (Throw _) => nou
| |- defined (Exit _) => nou
| |- defined NoFuel => nou
| |- defined (if ?b then _ else _) => destruct b
| |- defined (match ?x with _ => _ end) => destruct x
| |- defined (let _ := _ in _) => cbv zeta
| |- _ => solve [auto with def]
end.
Ltac defs := repeat def1.
Lemma def_substr s a b : defined (substr s a b). Proof. unfold substr; defs. Qed.
Lemma def_stoi s : defined (stoi s). Proof. unfold stoi; defs. Qed.
Lemma def_vat {A} (l : list A) k : defined (vat l k). Proof. unfold vat; defs. Qed.
#[global] Hint Resolve def_substr def_stoi def_vat : def.
Lemma def_substr1 s a : defined (substr1 s a). Proof. unfold substr1; defs. Qed.
#[global] Hint Resolve def_substr1 : def.
Lemma def_lsp fuel : forall s, defined (lastStringInPath_loop fuel s).
Proof. induction fuel as [|n IH]; intros; cbn [lastStringInPath_loop]; defs. Qed.
#[global] Hint Resolve def_lsp : def.
Lemma def_last s : defined (lastStringInPath s). Proof. unfold lastStringInPath; defs. Qed.
#[global] Hint Resolve def_last : def.
Lemma def_fileExt s : defined (fileExt_ s). Proof. unfold fileExt_; defs. Qed.
Lemma def_check a b : defined (checkSections_ a b). Proof. unfold checkSections_; defs. Qed.
#[global] Hint Resolve def_fileExt def_check : def.

Section Parser.
Context (E : env) (Hd : sound_double E).
Lemma def_stod s : defined (e_stod E s). Proof. intros u. apply Hd. Qed.
Hint Resolve def_stod : def.
Lemma def_getPath_loop fuel : forall a b c, defined (getPath_loop fuel a b c).
Proof. induction fuel as [|n IH]; intros; cbn [getPath_loop]; defs. Qed.
Lemma def_before a b : defined (grabStrBeforeLastOccurance a b). Proof. unfold grabStrBeforeLastOccurance; defs. Qed.
Lemma def_after a b : defined (grabStrAfterLastOccuranceInclusive a b). Proof. unfold grabStrAfterLastOccuranceInclusive; defs. Qed.
Lemma def_getPropOption {T} (p : prop T) o : defined (getPropOption p o). Proof. unfold getPropOption; defs. Qed.
Hint Resolve def_getPath_loop def_before def_after def_getPropOption : def.
Lemma def_v_int w p : defined (v_int E w p). Proof. unfold v_int, exist_propValid; defs. Qed.
Lemma def_v_size w p : defined (v_size w p). Proof. unfold v_size, string_propValid; defs. Qed.
Lemma def_v_str w p : defined (v_str w p). Proof. unfold v_str, switch_propValid; defs. Qed.
Lemma def_v_vec w p : defined (v_vec E w p). Proof. unfold v_vec, sister_propValid, getPath; defs. Qed.
Lemma def_int_valid w p : defined (int_propValid w p). Proof. unfold int_propValid; defs. Qed.
Lemma def_dbl_valid w p : defined (double_propValid E w p). Proof. unfold double_propValid; defs. Qed.
Hint Resolve def_v_int def_v_size def_v_str def_v_vec def_int_valid def_dbl_valid : def.
(** "choices are enforced" has a value *)
Definition chosen (p : prop (list str)) : Prop := p_kind p = PChoice -> m_find $"STRING_CHOICE_ENFORCED" (p_options p) <> Some [].
Lemma def_v_set w p : chosen p -> defined (v_set w p).
Proof.
  intros C. unfold v_set. destruct (p_kind p) eqn:K; try nou; [unfold ext_propValid, extSupported, ext_checkExt; defs|]. unfold choice_propValid, getPropOption. specialize (C K).
  destruct (m_find _ (p_options p)) as [[|v l]|]; [congruence|cbn [bind]; defs|nou].
Qed.
Lemma def_argeach {A} (f : A -> outcome A) l : (forall x, In x l -> defined (f x)) -> defined (each f l).
Proof. intros H. induction l; cbn [each]; defs; [apply H; left; auto|]. apply IHl. intros. apply H. right. auto. Qed.
Definition settled_arg (a : arg E) : Prop := Forall chosen (a_set E a).
Lemma def_valid_str w a : settled_arg a -> defined (argValid_str E w a).
Proof.
  intros S. unfold argValid_str. do 3 (apply def_bind; [apply def_argeach; auto with def|intros ? _]). apply def_bind; [|intros ? _; apply def_bind; [apply def_argeach; auto with def|intros; nou]].
  apply def_argeach. intros p I. apply def_v_set. unfold settled_arg in S. rewrite Forall_forall in S. auto.
Qed.
Lemma def_valid_int w a : defined (argValid_int E w a). Proof. unfold argValid_int. apply def_bind; [apply def_argeach; auto with def|intros; nou]. Qed.
Lemma def_valid_dbl w a : defined (argValid_dbl E w a). Proof. unfold argValid_dbl. apply def_bind; [apply def_argeach; auto with def|intros; nou]. Qed.
Lemma set_str w a a' : argValid_str E w a = Ok a' -> a_set E a' = a_set E a.
Proof.
  unfold argValid_str. intros H. apply bind_ok in H as (i & _ & H). apply bind_ok in H as (z & _ & H). apply bind_ok in H as (s & _ & H). apply bind_ok in H as (st & Hst & H). apply bind_ok in H as (v & _ & H).
  injection H as <-. cbn [a_set]. apply each_same in Hst; [auto|apply v_set_same].
Qed.
Lemma set_int w a a' : argValid_int E w a = Ok a' -> a_set E a' = a_set E a. Proof. unfold argValid_int. intros H. apply bind_ok in H as (i & _ & H). injection H as <-. reflexivity. Qed.
Lemma set_dbl w a a' : argValid_dbl E w a = Ok a' -> a_set E a' = a_set E a. Proof. unfold argValid_dbl. intros H. apply bind_ok in H as (i & _ & H). injection H as <-. reflexivity. Qed.
Definition settled_map (m : smap (arg E)) : Prop := forall f a, m_find f m = Some a -> settled_arg a.
Lemma settled_set f a m : settled_map m -> settled_arg a -> settled_map (m_set f a m).
Proof. intros S Sa g b H. destruct (str_eqb g f) eqn:Eg; [apply str_eqb_eq in Eg; subst; rewrite find_set_eq in H; injection H as <-; auto|]. apply str_eqb_neq in Eg. rewrite find_set_ne in H by auto. eapply S; eauto. Qed.
Record settled (P : parser E) : Prop := { st_s : settled_map (str_arg P); st_w : settled_map (switch_arg P); st_i : settled_map (int_arg P); st_d : settled_map (double_arg P); st_f : settled_map (file_arg P) }.
Definition fine (o : outcome (pstate (E:=E))) : Prop := defined o /\ forall st, o = Ok st -> settled (snd (fst st)).
Lemma def_next i l : defined (next_word i l). Proof. unfold next_word; defs. Qed.
Hint Resolve def_next : def.
Lemma fine_str f l st : settled (snd (fst st)) -> fine (parse_str f l st).
Proof.
  destruct st as [[i P] u]. cbn [fst snd]. intros S. unfold parse_str. destruct (m_find f (str_arg P)) as [a|] eqn:Ef; [|split; [nou|intros st H; injection H as <-; auto]].
  destruct (_ || _); [|split; [nou|intros st H; injection H as <-; auto]]. pose proof (st_s P S f a Ef) as Sa. split.
  - apply def_bind; [auto with def|]. intros w _. apply def_bind; [apply def_valid_str; auto|]. intros; nou.
  - intros st H. apply bind_ok in H as (w & _ & H). apply bind_ok in H as (a' & Ha & H). injection H as <-. apply set_str in Ha. destruct S. constructor; cbn; auto. apply settled_set; [auto|]. red. rewrite Ha. exact Sa.
Qed.
Lemma fine_switch f l st : settled (snd (fst st)) -> fine (parse_switch f l st).
Proof.
  destruct st as [[i P] u]. cbn [fst snd]. intros S. unfold parse_switch. destruct (m_find f (switch_arg P)) as [a|] eqn:Ef; [|split; [nou|intros st H; injection H as <-; auto]].
  pose proof (st_w P S f a Ef) as Sa. destruct (negb _).
  - destruct (nth_error l (i + 1)) as [w|].
    + split.
      * apply def_bind; [apply def_valid_str; auto|]. intros a' _. cbv zeta. unfold positive_str. defs.
      * intros st H. apply bind_ok in H as (a' & Ha & H). cbv zeta in H. apply bind_ok in H as (b & _ & H). injection H as <-. apply set_str in Ha. destruct S. constructor; cbn; auto. apply settled_set; [auto|]. red. rewrite Ha. exact Sa.
    + destruct (requiresParameter E a); [split; [nou|intros ? H; discriminate]|]. split; [nou|]. intros st H. injection H as <-. destruct S. constructor; cbn; auto.
  - split; [nou|]. intros st H. injection H as <-. destruct S. constructor; cbn; auto.
Qed.
Lemma fine_int f l st : settled (snd (fst st)) -> fine (parse_int f l st).
Proof.
  destruct st as [[i P] u]. cbn [fst snd]. intros S. unfold parse_int. destruct (m_find f (int_arg P)) as [a|] eqn:Ef; [|split; [nou|intros st H; injection H as <-; auto]].
  destruct (_ || _); [|split; [nou|intros st H; injection H as <-; auto]]. pose proof (st_i P S f a Ef) as Sa. split.
  - apply def_bind; [auto with def|]. intros w _. apply def_bind; [auto with def|]. intros v _. apply def_bind; [apply def_valid_int|]. intros; nou.
  - intros st H. apply bind_ok in H as (w & _ & H). apply bind_ok in H as (v & _ & H). apply bind_ok in H as (a' & Ha & H). injection H as <-. apply set_int in Ha. destruct S. constructor; cbn; auto. apply settled_set; [auto|]. red. rewrite Ha. exact Sa.
Qed.
Lemma fine_double f l st : settled (snd (fst st)) -> fine (parse_double f l st).
Proof.
  destruct st as [[i P] u]. cbn [fst snd]. intros S. unfold parse_double. destruct (m_find f (double_arg P)) as [a|] eqn:Ef; [|split; [nou|intros st H; injection H as <-; auto]].
  destruct (_ || _); [|split; [nou|intros st H; injection H as <-; auto]]. pose proof (st_d P S f a Ef) as Sa. split.
  - apply def_bind; [auto with def|]. intros w _. apply def_bind; [auto with def|]. intros v _. apply def_bind; [apply def_valid_dbl|]. intros; nou.
  - intros st H. apply bind_ok in H as (w & _ & H). apply bind_ok in H as (v & _ & H). apply bind_ok in H as (a' & Ha & H). injection H as <-. apply set_dbl in Ha. destruct S. constructor; cbn; auto. apply settled_set; [auto|]. red. rewrite Ha. exact Sa.
Qed.
Lemma fine_file f l st : settled (snd (fst st)) -> fine (parse_file f l st).
Proof.
  destruct st as [[i P] u]. cbn [fst snd]. intros S. unfold parse_file. destruct (m_find f (file_arg P)) as [a|] eqn:Ef; [|split; [nou|intros st H; injection H as <-; auto]].
  destruct (_ || _); [|split; [nou|intros st H; injection H as <-; auto]]. pose proof (st_f P S f a Ef) as Sa. split.
  - apply def_bind; [auto with def|]. intros w _. apply def_bind; [apply def_valid_str; auto|]. intros; nou.
  - intros st H. apply bind_ok in H as (w & _ & H). apply bind_ok in H as (a' & Ha & H). injection H as <-. apply set_str in Ha. destruct S. constructor; cbn; auto. apply settled_set; [auto|]. red. rewrite Ha. exact Sa.
Qed.
Lemma fine_arg i l P : settled P -> defined (parseArg_ i l P) /\ forall r, parseArg_ i l P = Ok r -> settled (snd r).
Proof.
  intros S. unfold parseArg_. destruct (nth_error l i) as [w|]; [|split; [nou|intros ? H; discriminate]]. cbv zeta. set (f := resolve P w).
  destruct (fine_str f l (i, P, true) S) as [D1 S1]. split.
  - apply def_bind; [auto|]. intros s1 E1. apply S1 in E1. destruct (fine_switch f l s1 E1) as [D2 S2]. apply def_bind; [auto|]. intros s2 E2. apply S2 in E2. destruct (fine_int f l s2 E2) as [D3 S3].
    apply def_bind; [auto|]. intros s3 E3. apply S3 in E3. destruct (fine_double f l s3 E3) as [D4 S4]. apply def_bind; [auto|]. intros s4 E4. apply S4 in E4. destruct (fine_file f l s4 E4) as [D5 S5].
    apply def_bind; [auto|]. intros [[j P5] u5] E5. destruct u5; nou.
  - intros r H. apply bind_ok in H as (s1 & E1 & H). apply S1 in E1. destruct (fine_switch f l s1 E1) as [D2 S2]. apply bind_ok in H as (s2 & E2 & H). apply S2 in E2. destruct (fine_int f l s2 E2) as [D3 S3].
    apply bind_ok in H as (s3 & E3 & H). apply S3 in E3. destruct (fine_double f l s3 E3) as [D4 S4]. apply bind_ok in H as (s4 & E4 & H). apply S4 in E4. destruct (fine_file f l s4 E4) as [D5 S5].
    apply bind_ok in H as (s5 & E5 & H). apply S5 in E5. destruct s5 as [[j P5] u5]. destruct u5; [discriminate|]. injection H as <-. exact E5.
Qed.
Lemma def_loop l fuel : forall i al P, settled P -> defined (parse_loop fuel l i al P).
Proof.
  induction fuel as [|n IH]; intros i al P S; cbn [parse_loop]; [nou|]. destruct (nth_error l i) as [w|]; [|nou].
  destruct (is_help w); [destruct (_ =? _)%nat; [nou|auto]|]. destruct (is_version w); [nou|]. destruct (is_citation w); [destruct (_ =? _)%nat; [nou|auto]|].
  destruct (fine_arg i l P S) as [D1 S1]. apply def_bind; [auto|]. intros r Er. apply IH. auto.
Qed.
Lemma def_post (P : parser E) : defined (postParseCheck P). Proof. unfold postParseCheck, postArgCheck, exist_postCheck; defs. Qed.
Lemma def_parse l P : settled P -> defined (parse l P).
Proof. intros S. unfold parse. destruct l as [|x [|y t]]; try nou. apply def_bind; [apply def_loop; auto|]. intros P' _. apply def_bind; [apply def_post|]. intros; nou. Qed.
Lemma def_prop_value {T} (t : T -> str) a b ps r : prop_value t a b ps = Some r -> defined r.
Proof.
  induction ps as [|p ps IH]; cbn [prop_value]; [discriminate|]. destruct (str_eqb a (prop_name (p_kind p)) && existsb (str_eqb b) (prop_opts (p_kind p))); auto.
  intros X. injection X as <-. defs.
Qed.
Lemma def_getPropertyValues (a : arg E) x y : defined (getPropertyValues E a x y).
Proof.
  unfold getPropertyValues, orelse.
  repeat match goal with |- context [prop_value ?t ?a ?b ?l] => let X := fresh in destruct (prop_value t a b l) eqn:X; [exact (def_prop_value _ _ _ _ _ X)|] end. nou.
Qed.
Hint Resolve def_getPropertyValues : def.
Lemma def_flag_value (m : smap (arg E)) a b c d r : flag_value m a b c d = Some r -> defined r.
Proof. unfold flag_value. destruct (m_find a m); [|discriminate]. destruct (str_eqb _ b); [|discriminate]. intros X. injection X as <-. defs. Qed.
Lemma def_flagopt (P : parser E) a b c d : defined (getFlagArgOptValue P a b c d).
Proof.
  unfold getFlagArgOptValue, orelse.
  repeat match goal with |- context [flag_value ?m ?a ?b ?c ?d] => let X := fresh in destruct (flag_value m a b c d) eqn:X; [exact (def_flag_value _ _ _ _ _ _ X)|] end. nou.
Qed.
Lemma def_positive w : defined (positive_str w). Proof. unfold positive_str; defs. Qed.
Hint Resolve def_positive : def.
Lemma def_getStr (P : parser E) f : defined (getStr P f). Proof. unfold getStr; defs. Qed.
Lemma def_getInt (P : parser E) f : defined (getInt P f). Proof. unfold getInt; defs. Qed.
Hint Resolve def_flagopt def_getStr def_getInt : def.
Lemma def_resolve_flag (P : parser E) ff m : defined (resolve_flag P ff m). Proof. unfold resolve_flag; defs. Qed.
Lemma def_pick m f : defined (pick m f). Proof. unfold pick; defs. Qed.
Lemma def_orbital (P : parser E) a b : defined (ParserModel.orbital P a b). Proof. unfold ParserModel.orbital; defs. Qed.
Lemma def_ext a b : defined (check_ext a b). Proof. unfold check_ext, lastN; defs. Qed.
Hint Resolve def_resolve_flag def_pick def_orbital def_ext : def.
Lemma def_prepare (P : parser E) : defined (prepareParameters P).
Proof. unfold prepareParameters, setPunP, setPun1, setPun2, setLogP, setLog1, setLog2; defs. Qed.
(** the parser of calc_J *)
Definition chosen_b (p : prop (list str)) : bool := match m_find $"STRING_CHOICE_ENFORCED" (p_options p) with Some [] => false | _ => true end.
Definition settled_mb (m : smap (arg E)) : bool := forallb (fun it => forallb chosen_b (a_set E (snd it))) m.
Lemma settled_mb_ok m : settled_mb m = true -> settled_map m.
Proof.
  intros H f a Hf. unfold settled_mb in H. rewrite forallb_forall in H. assert (I : exists g, In (g, a) m).
  { clear H. induction m as [|[g b] m IH]; cbn [m_find] in Hf; [discriminate|]. destruct (str_eqb f g); [injection Hf as <-; exists g; left; auto|]. destruct (IH Hf) as (g' & I). exists g'. right. auto. }
  destruct I as (g & I). apply H in I. cbn [snd] in I. rewrite forallb_forall in I. apply Forall_forall. intros p Ip _ Hp. apply I in Ip. unfold chosen_b in Ip. rewrite Hp in Ip. discriminate.
Qed.
Lemma catnip_settled P : prepareParser E = Ok P -> settled P.
Proof.
  assert (K : match prepareParser E with Ok P => settled_mb (str_arg P) && settled_mb (switch_arg P) && settled_mb (int_arg P) && settled_mb (double_arg P) && settled_mb (file_arg P) | _ => false end = true) by (vm_compute; reflexivity).
  revert K. generalize (prepareParser E) as Q. intros Q K ->. apply andb_prop in K as [K K5]. apply andb_prop in K as [K K4]. apply andb_prop in K as [K K3]. apply andb_prop in K as [K1 K2].
  constructor; apply settled_mb_ok; assumption.
Qed.
End Parser.

(** ** what the readers hold *)
Section Readers.
Context (N : nums).
Let U (_ : ubkind) : Prop := True.
Notation ok P := (good U P).
Definition held (d : logd N) : Prop := (forall m, S_ N d = Some m -> full m) /\ (length (xyz N d) <= 3)%nat /\
  (forall s h, m_find s (homoLevel N d) = Some h -> exists e, m_find s (OREnergies N d) = Some e /\ 0 <= h <= Z.of_nat (length e)).
Lemma ok_any {A} (o : outcome A) : ok any o. Proof. destruct o; exact I. Qed.
Lemma set2_full v r c (m : mat (num N)) : full m -> ok full (set_elem2 v r c m).
Proof. intros F. eapply good_weak; [apply (good_set2 U (rows m) (cols m)); split; auto|]. intros x (Fx & _). exact Fx. Qed.
Lemma ok_fill rows0 m : full m -> ok full (ov_fill N rows0 m).
Proof.
  intros F. unfold ov_fill. eapply good_bind with (P := fun p : Z * mat (num N) => full (snd p)); [|intros p Hp; exact Hp]. apply good_each; [exact F|]. intros row [r m1] _ F1. cbn [snd] in F1.
  eapply good_bind with (P := fun p : Z * mat (num N) => full (snd p)); [|intros q Hq; exact Hq]. apply good_each; [exact F1|]. intros v [c m2] _ F2. cbn [snd] in F2.
  eapply good_bind; [apply set2_full; auto|]. intros m3 F3. eapply good_bind with (P := full); [destruct (negb _); [apply set2_full; auto|exact F3]|]. intros m4 F4. exact F4.
Qed.
Lemma ok_row r fuel : forall i c m, full m -> ok full (ov_row N fuel i r c m).
Proof.
  induction fuel as [|n IH]; intros i c m F; cbn [ov_row]; [exact I|]. destruct (i_eof i); [exact F|]. destruct (next i []) as [w i']. eapply good_bind; [apply ok_any|]. intros v _.
  eapply good_bind; [apply set2_full; auto|]. intros m3 F3. eapply good_bind with (P := full); [destruct (negb _); [apply set2_full; auto|exact F3]|]. intros m4 F4. auto.
Qed.
Lemma ok_overlap fuel f d : held d -> ok (fun r => held (snd r)) (OverlapSectionReader N fuel f d).
Proof.
  intros [H1 H2]. unfold OverlapSectionReader. destruct (getl f []) as [line f1]. eapply good_bind; [apply ok_any|]. intros [[[f2 line2] n] rows0] _. eapply good_bind; [apply good_new2; left; exact I|]. intros m (Fm & _).
  eapply good_bind; [apply ok_fill; auto|]. intros m1 F1. cbv zeta. eapply good_bind with (P := fun p : fstate * str * mat (num N) => full (snd p)).
  - apply good_up; [exact F1|]. intros sec p _ Fp. eapply good_bind with (P := fun p : fstate * str * mat (num N) => full (snd p)).
    + apply good_up; [exact Fp|]. intros co [[f3 l3] m3] _ F3. cbn [snd] in F3. destruct (getl f3 l3) as [l4 f4]. destruct (next (iss l4) []) as [w i]. eapply good_bind; [apply ok_row; auto|]. intros m4 F4. exact F4.
    + intros [[f3 l3] m3] F3. destruct (getl f3 l3) as [l4 f4]. exact F3.
  - intros [[f3 l3] m3] F3. cbn [snd good] in *. split; cbn [S_ xyz]; [|auto]. intros m' E'. injection E' as <-. exact F3.
Qed.
Lemma ok_oe_loop o fuel : forall f line oe h, 0 <= h <= Z.of_nat (length oe) -> ok (fun r => 0 <= snd r <= Z.of_nat (length (snd (fst r)))) (oe_loop N fuel o f line oe h).
Proof.
  induction fuel as [|n IH]; intros f line oe h Hh; cbn [oe_loop]; [exact I|]. destruct (getl f line) as [l f1]. destruct (s_fail (fid f1)); [exact Hh|]. cbv zeta. destruct (_ || _); [|exact Hh].
  eapply good_bind; [apply ok_any|]. intros v _. apply IH. rewrite app_length. destruct (foundSubStrInStr _ _); lia.
Qed.
Lemma ok_energies fuel o f d : held d -> ok (fun r => held (snd r)) (ReadOrbEnergies N fuel o f d).
Proof.
  intros (H1 & H2 & H3). unfold ReadOrbEnergies. eapply good_bind; [apply ok_oe_loop; cbn [length]; lia|]. intros [[f3 e] h] Hh. cbn [fst snd] in Hh. cbn [good snd].
  split; [exact H1|]. split; [exact H2|]. cbn [homoLevel OREnergies]. intros s h' Hs.
  destruct (str_eqb s o) eqn:Es; [apply str_eqb_eq in Es; subst s; rewrite find_set_eq in Hs; injection Hs as <-; rewrite find_set_eq; eauto|]. apply str_eqb_neq in Es. rewrite find_set_ne in Hs by auto. rewrite find_set_ne by auto. eauto.
Qed.
Lemma ok_coord_loop fuel : forall f line X Y Z0, ok (fun r => (length (snd r) <= 3)%nat) (coord_loop N fuel f line X Y Z0).
Proof.
  induction fuel as [|n IH]; intros; cbn [coord_loop]; [exact I|]. destruct (foundSubStrInStr _ _); [cbn [good snd length]; lia|]. cbv zeta.
  do 6 (eapply good_bind; [apply ok_any|]; intros ? _). destruct (getl f line) as [l f1]. apply IH.
Qed.
Lemma ok_section fuel tag f d : held d -> ok (fun r => held (snd r)) (log_section N fuel tag f d).
Proof.
  intros H. unfold log_section. destruct (str_eqb tag _); [|destruct (str_eqb tag _); [apply ok_overlap; auto|destruct (str_eqb tag _); [|destruct (str_eqb tag _)]]].
  - unfold AOFunctionSectionReader. destruct (getl f []) as [l f1]. destruct (getl f1 l) as [l2 f2]. eapply good_bind; [apply ok_any|]. intros [f3 o] _. exact H.
  - apply ok_energies; auto.
  - apply ok_energies; auto.
  - unfold CoordSectionReader. destruct (getl f []) as [l f1]. destruct (getl f1 l) as [l2 f2]. destruct (getl f2 l2) as [l3 f3]. eapply good_bind; [apply ok_coord_loop|]. intros [f4 c] Hc. cbn [snd] in Hc. destruct H as (H1 & H2 & H3). split; [exact H1|]. split; [exact Hc|exact H3].
Qed.
Lemma ok_loop {M} (K : M -> Prop) hs rd : (forall n tag f m, K m -> ok (fun r => K (snd r)) (rd n tag f m)) -> forall fuel f line m, K m -> ok (fun r => K (snd r)) (read_loop hs rd fuel f line m).
Proof.
  intros Hr. induction fuel as [|n IH]; intros f line m Km; cbn [read_loop]; [exact I|]. destruct (getl f line) as [l f1]. destruct (s_fail (fid f1)); [exact Km|].
  eapply good_bind with (P := fun r => K (snd r)); [destruct (startSection_ hs l); [auto|exact Km]|]. intros [f2 m2] K2. apply IH. exact K2.
Qed.
Lemma log_held disk fuel name lr : open_log N disk fuel name = Ok lr -> held (lr_data N lr).
Proof.
  assert (G : ok (fun lr => held (lr_data N lr)) (open_log N disk fuel name)).
  { unfold open_log. eapply good_bind with (P := fun r => held (lr_data N r)).
    - unfold LogReader_new. eapply good_bind; [apply ok_any|]. intros e _. destruct (negb _); [exact I|]. eapply good_bind; [apply ok_any|]. intros _ _. split; [|split]; cbn [S_ xyz lr_data length homoLevel m_find]; [discriminate|lia|discriminate].
    - intros r Hr. unfold log_read, ReaderModel.read. eapply good_bind with (P := fun p => held (snd p)); [|intros p Hp; exact Hp]. match goal with |- context [disk ?x] => destruct (disk x); [|exact I] end.
      eapply good_bind; [apply ok_loop; [intros; apply ok_section; auto|exact Hr]|]. intros p Hp. exact Hp. }
  intros E0. rewrite E0 in G. exact G.
Qed.
Definition filled (c : smap (mat (num N))) : Prop := forall s m, m_find s c = Some m -> full m.
Lemma ok_pun fuel tag f c : filled c -> ok (fun r => filled (snd r)) (pun_section N fuel tag f c).
Proof.
  intros H. assert (G : forall s, ok (fun r => filled (snd r)) (ReadCoef N fuel s f c)).
  { intros s. unfold ReadCoef. eapply good_bind; [apply ok_any|]. intros [f1 v] _. eapply good_bind; [apply (good_of_vecs (n_zero N)); left; exact I|]. intros m Fm. cbn [good snd]. intros t m' E'.
    destruct (str_eqb t s) eqn:Es; [apply str_eqb_eq in Es; subst; rewrite find_set_eq in E'; injection E' as <-; auto|]. apply str_eqb_neq in Es. rewrite find_set_ne in E' by auto. eapply H; eauto. }
  unfold pun_section. destruct (str_eqb _ _); apply G.
Qed.
Lemma pun_filled disk fuel name pr : open_pun N disk fuel name = Ok pr -> filled (coefs N pr).
Proof.
  assert (G : ok (fun pr => filled (coefs N pr)) (open_pun N disk fuel name)).
  { unfold open_pun. eapply good_bind with (P := fun r => filled (coefs N r)).
    - unfold PunReader_new. eapply good_bind; [apply ok_any|]. intros e _. destruct (negb _); [exact I|]. eapply good_bind; [apply ok_any|]. intros _ _. intros s m E'. discriminate.
    - intros r Hr. unfold pun_read, ReaderModel.read. eapply good_bind with (P := fun p => filled (snd p)); [|intros p Hp; exact Hp]. match goal with |- context [disk ?x] => destruct (disk x); [|exact I] end.
      eapply good_bind; [apply ok_loop; [intros; apply ok_pun; auto|exact Hr]|]. intros p Hp. exact Hp. }
  intros E0. rewrite E0 in G. exact G.
Qed.
Lemma def_good {A} (V : ubkind -> Prop) (o : outcome A) : defined o -> good V any o. Proof. intros D. destruct o; cbn [good]; try exact I. destruct (D u eq_refl). Qed.
Lemma open_log_safe disk fuel name : sound_stod N -> memory_safe (open_log N disk fuel name).
Proof.
  intros Hs u. unfold open_log, LogReader_new. intros E0.
  assert (D : defined (ext <- fileExt_ name ;; if negb (str_eqb ext $".log") then Throw InvalidArgument else checkSections_ log_headers log_readers ;;; Ok (mkLogReader N name (Some O) (mkLog N [] [] None [] [])))) by defs.
  destruct (bind (fileExt_ name) _) as [r|e|e|u'|]; cbn [bind] in E0; try discriminate E0; [|destruct (D u' eq_refl)]. apply (log_safe N Hs disk fuel r u E0).
Qed.
Lemma open_pun_safe disk fuel name : sound_stod N -> memory_safe (open_pun N disk fuel name).
Proof.
  intros Hs u. unfold open_pun, PunReader_new. intros E0.
  assert (D : defined (ext <- fileExt_ name ;; if negb (str_eqb ext $".pun") then Throw InvalidArgument else checkSections_ pun_headers pun_readers ;;; Ok (mkPunReader N name (Some O) []))) by defs.
  destruct (bind (fileExt_ name) _) as [r|e|e|u'|]; cbn [bind] in E0; try discriminate E0; [|destruct (D u' eq_refl)]. apply (pun_safe N Hs disk fuel r u E0).
Qed.
End Readers.

(** ** computing *)
Section Compute.
Context (N : nums) (A : arith (num N)) (lab : num N -> str).
Lemma all_or_not n w : inside_all n w \/ exists i e, nth_error w i = Some e /\ ~ 1 <= e <= n.
Proof.
  induction w as [|e w IH]; [left; constructor|]. destruct (Z_le_dec 1 e) as [L1|L1]; [destruct (Z_le_dec e n) as [L2|L2]|].
  - destruct IH as [F|(i & e' & Hi & He)]; [left; constructor; auto|]. right. exists (S i), e'. auto.
  - right. exists 0%nat, e. split; [reflexivity|lia].
  - right. exists 0%nat, e. split; [reflexivity|lia].
Qed.
Lemma match_inside (U : ubkind -> Prop) c1 c2 m1 m2 : (length c1 <= 3)%nat -> (length c2 <= 3)%nat -> Matrix_of_vecs c1 = Ok m1 -> Matrix_of_vecs c2 = Ok m2 ->
  good U (fun w => length w = atoms c1 /\ (inside_all (Z.of_nat (atoms c2)) w \/ ~ among lab c1 c2)) (matchCol lab str_eqb m1 m2).
Proof.
  intros L1 L2 E1 E2. eapply good_weak; [apply (good_match (n_zero N) lab U c1 c2); auto|]. intros w [Lw Hw]. split; [exact Lw|]. destruct (all_or_not (Z.of_nat (atoms c2)) w) as [F|(i & e & Hi & He)]; [auto|right].
  intros Am. destruct (Hw i e Hi) as [K|K]; [auto|]. apply K, Am. rewrite <- Lw. apply nth_error_Some. congruence.
Qed.
Lemma inside_more n m w : n <= m -> inside_all n w -> inside_all m w. Proof. intros L F. eapply Forall_impl; [|exact F]. cbv beta. lia. Qed.
Lemma good_unscramble (U : ubkind -> Prop) fuel tc l1 l2 lP m1 m2 mP : (~ lined_up N lab (tc_cp tc) l1 l2 lP -> U BadIterator) ->
  MemQc.few U (getBasisFuncCount N l2) -> MemQc.few U (getBasisFuncCount N lP) ->
  (length (getCoords N l1) <= 3)%nat -> (length (getCoords N l2) <= 3)%nat -> (length (getCoords N lP) <= 3)%nat ->
  Matrix_of_vecs (getCoords N l1) = Ok m1 -> Matrix_of_vecs (getCoords N l2) = Ok m2 -> Matrix_of_vecs (getCoords N lP) = Ok mP -> full_tc U tc ->
  good U (full_tc U) (tc_unscramble A lab fuel tc m1 m2 mP (getBasisFuncCount N lP) (getBasisFuncCount N l2)).
Proof.
  intros HL W2 WP L1 L2 LP E1 E2 EP (F1 & F2 & FP & FS & FO & FN). unfold tc_unscramble, unscramble_Coef1, unscramble_Coef2, unscramble_S1, unscramble_S2. unfold lined_up in HL.
  set (bP := getBasisFuncCount N lP) in *. set (b2 := getBasisFuncCount N l2) in *. set (c1 := getCoords N l1) in *. set (c2 := getCoords N l2) in *. set (cP := getCoords N lP) in *. destruct (tc_cp tc).
  - eapply good_bind; [apply (match_inside U c1 c2); auto|]. intros w2 [Lw2 Iw2]. eapply good_bind; [apply good_u1; [auto..|]|].
    { destruct Iw2 as [Iw2|Iw2]; [|left; apply HL; tauto]. destruct (le_dec (atoms c1) (length b2)); [|left; apply HL; tauto]. destruct (le_dec (atoms c2) (length b2)); [|left; apply HL; tauto].
      right. split; [lia|]. eapply inside_more; [|eauto]. lia. }
    intros u2 Fu2. eapply good_bind; [apply (match_inside U c1 cP); auto|]. intros w1 [Lw1 Iw1].
    assert (C : U BadIterator \/ Z.of_nat (length w1) <= Z.of_nat (length bP) /\ inside_all (Z.of_nat (length bP)) w1).
    { destruct Iw1 as [Iw1|Iw1]; [|left; apply HL; tauto]. destruct (le_dec (atoms c1) (length bP)); [|left; apply HL; tauto]. destruct (le_dec (atoms cP) (length bP)); [|left; apply HL; tauto].
      right. split; [lia|]. eapply inside_more; [|eauto]. lia. }
    eapply good_bind; [apply good_u1; auto|]. intros uP FuP. eapply good_bind with (P := fs U).
    + unfold unscramble_S1. eapply good_bind; [apply good_u1; auto|]. intros s Fs. apply good_u1; auto.
    + intros uS FuS. cbn [good]. unfold full_tc. cbn. auto 10.
  - eapply good_bind; [apply (match_inside U c1 cP); auto|]. intros w1 [Lw1 Iw1]. eapply good_bind; [apply (match_inside U c2 cP); auto|]. intros w2 [Lw2 Iw2].
    assert (C : U BadIterator \/ Z.of_nat (length w1 + length w2) <= Z.of_nat (length bP) /\ inside_all (Z.of_nat (length bP)) w1 /\ inside_all (Z.of_nat (length bP)) w2).
    { destruct Iw1 as [Iw1|Iw1]; [|left; apply HL; tauto]. destruct Iw2 as [Iw2|Iw2]; [|left; apply HL; tauto]. destruct (le_dec (atoms c1 + atoms c2) (length bP)); [|left; apply HL; tauto]. destruct (le_dec (atoms cP) (length bP)); [|left; apply HL; tauto].
      right. split; [lia|]. split; (eapply inside_more; [|eauto]; lia). }
    eapply good_bind; [apply good_u2; auto|]. intros uP FuP. eapply good_bind with (P := fs U).
    + eapply good_bind; [apply good_u2; auto|]. intros s Fs. apply good_u2; auto.
    + intros uS FuS. cbn [good]. unfold full_tc. cbn. auto 10.
Qed.
Lemma good_eq {X} (V : ubkind -> Prop) (P : X -> Prop) o : good V P o -> good V (fun a => P a /\ o = Ok a) o. Proof. destruct o; cbn [good]; auto. Qed.
Lemma good_compute {R} (finish : params -> bool -> num N -> num N -> num N -> num N -> R) (U : ubkind -> Prop) fuel par pP p1 p2 lP l1 l2 :
  (~ moderate N par p1 p2 pP l1 l2 lP -> U SignedOverflow) ->
  (getBasisFuncCount N l1 <> [] -> getBasisFuncCount N l2 <> [] -> getBasisFuncCount N lP <> [] -> ~ lined_up N lab (counterPoise par) l1 l2 lP -> U BadIterator) ->
  (getOverlapMatrix N lP = Undef Uninitialised -> U Uninitialised) ->
  filled N (coefs N pP) -> filled N (coefs N p1) -> filled N (coefs N p2) -> held N (lr_data N lP) -> held N (lr_data N l1) -> held N (lr_data N l2) ->
  good U any (compute_with N A lab finish fuel par pP p1 p2 lP l1 l2).
Proof.
  intros HM HL HO FP F1 F2 (HP & XP & EP) (H1 & X1 & E1) (H2 & X2 & E2). unfold compute_with. unfold moderate in HM.
  assert (dims : forall m : mat (num N), {MatrixModel.rows m <= 46340 /\ MatrixModel.cols m <= 46340} + {~ (MatrixModel.rows m <= 46340 /\ MatrixModel.cols m <= 46340)}).
  { intros m. destruct (Z_le_dec (MatrixModel.rows m) 46340), (Z_le_dec (MatrixModel.cols m) 46340); [left; auto|right; lia..]. }
  assert (GC : forall p s, filled N (coefs N p) -> In (getCoefsMatrix N p s) [getCoefsMatrix N p1 (spin1 par); getCoefsMatrix N p2 (spin2 par); getCoefsMatrix N pP (spinP par)] -> good U (fs U) (getCoefsMatrix N p s)).
  { intros p s Fp Ip. destruct (getCoefsMatrix N p s) as [m| | |u|] eqn:Em; unfold getCoefsMatrix in Em; destruct (m_find s (coefs N p)) as [m'|] eqn:Em'; try discriminate Em; try exact I. injection Em as ->.
    cbn [good]. split; [apply (Fp s); auto|]. destruct (dims m) as [d|d]; [auto|left]. apply HM. intros (M & _). rewrite Forall_forall in M. apply d, (M (Ok m)); [right; exact Ip|reflexivity]. }
  assert (GO : forall l s, In (getOE N l s) [getOE N l1 (spin1 par); getOE N l2 (spin2 par); getOE N lP (spinP par)] -> good U (fun e => m_find s (OREnergies N (lr_data N l)) = Some e /\ (U SignedOverflow \/ Z.of_nat (length e) <= 46340)) (getOE N l s)).
  { intros l s Il. destruct (getOE N l s) as [e| | |u|] eqn:Ee; unfold getOE in Ee; destruct (m_find s (OREnergies N (lr_data N l))) as [e'|] eqn:Ee'; try discriminate Ee; try exact I. injection Ee as ->.
    cbn [good]. split; [reflexivity|]. destruct (Z_le_dec (Z.of_nat (length e)) 46340) as [d|d]; [auto|left]. apply HM. intros (_ & M & _). rewrite Forall_forall in M. apply d, (M (Ok e)); [exact Il|reflexivity]. }
  assert (GH : forall l s, good U (fun h => m_find s (homoLevel N (lr_data N l)) = Some h) (getHOMOLevel N l s)) by (intros; unfold getHOMOLevel; destruct (m_find _ _); [reflexivity|exact I]).
  assert (GV : forall e : list (num N), (U SignedOverflow \/ Z.of_nat (length e) <= 46340) -> good U (fun m => fs U m /\ MatrixModel.rows m = Z.of_nat (length e)) (Matrix_of_vec e)).
  { intros e He. eapply good_weak; [apply (good_of_vec (n_zero N)); destruct He; [auto|right; change INT_MAX with 2147483647; lia]|]. intros m (Fm & Rm & Cm). split; [|exact Rm]. split; [exact Fm|]. rewrite Rm, Cm. destruct He; [auto|right; lia]. }
  assert (GX : forall l, In l [l1; l2; lP] -> (length (getCoords N l) <= 3)%nat -> good U (fun m => Matrix_of_vecs (getCoords N l) = Ok m) (Matrix_of_vecs (getCoords N l))).
  { intros l Il L3. eapply good_weak; [apply good_eq, (good_of_vecs (n_zero N))|intros m [_ Em]; exact Em].
    destruct (Z_le_dec (Z.of_nat (atoms (getCoords N l))) 46340) as [d|d]; [|left; apply HM; intros (_ & _ & M & _); rewrite Forall_forall in M; apply d, (M l Il)].
    right. unfold atoms in d. change INT_MAX with 2147483647. nia. }
  assert (GB : forall l, In l [l2; lP] -> MemQc.few U (getBasisFuncCount N l)).
  { intros l Il. unfold MemQc.few. destruct (Z_le_dec (Z.of_nat (length (getBasisFuncCount N l))) 46340) as [d|d]; [|left; apply HM; intros (_ & _ & _ & M); rewrite Forall_forall in M; apply d, (M l Il)].
    destruct (Forall_dec (fun k => k <= 46340) (fun k => Z_le_dec k 46340) (getBasisFuncCount N l)) as [d'|d']; [auto|left; apply HM; intros (_ & _ & _ & M); rewrite Forall_forall in M; apply d', (M l Il)]. }
  eapply good_bind with (P := fs U).
  { destruct (getOverlapMatrix N lP) as [m| | |u|] eqn:Em; unfold getOverlapMatrix in Em; destruct (S_ N (lr_data N lP)) as [m'|] eqn:Em'; try discriminate Em.
    - injection Em as ->. cbn [good]. split; [apply HP; auto|]. destruct (dims m) as [d|d]; [auto|left]. apply HM. intros (M & _). rewrite Forall_forall in M. apply d, (M (Ok m)); [left; reflexivity|reflexivity].
    - injection Em as <-. cbn [good]. apply HO. reflexivity. }
  intros mS FS.
  assert (CT : forall e h o, (U SignedOverflow \/ Z.of_nat (length e) <= 46340) -> 0 <= h <= Z.of_nat (length (e : list (num N))) -> fst o = Z.of_nat (length e) -> snd o = h -> counted U o).
  { intros e h o He Hh Ho Hs. unfold counted. rewrite Ho, Hs. destruct He; [auto|right]. change INT_MAX with 2147483647. lia. }
  eapply good_bind; [apply GC; cbn [In]; auto|intros cP GP]. eapply good_bind; [apply GO; cbn [In]; auto|intros eP [_ DP]]. eapply good_bind; [apply GV; auto|intros meP [GeP _]].
  eapply good_bind; [apply GH|intros h1 Hh1]. eapply good_bind; [apply GC; cbn [In]; auto|intros cm1 G1]. eapply good_bind; [apply GO; cbn [In]; auto|intros e1 [He1 D1]]. eapply good_bind; [apply GV; auto|intros me1 [Ge1 Re1]].
  eapply good_bind; [apply GH|intros h2 Hh2]. eapply good_bind; [apply GC; cbn [In]; auto|intros cm2 G2]. eapply good_bind; [apply GO; cbn [In]; auto|intros e2 [He2 D2]]. eapply good_bind; [apply GV; auto|intros me2 [Ge2 Re2]].
  eapply good_bind; [apply GX; [cbn [In]; auto|exact XP]|intros xP YP]. eapply good_bind; [apply GX; [cbn [In]; auto|exact X1]|intros x1 Y1]. eapply good_bind; [apply GX; [cbn [In]; auto|exact X2]|intros x2 Y2].
  destruct (E1 _ _ Hh1) as (e1' & He1' & B1). rewrite He1 in He1'. injection He1' as <-. destruct (E2 _ _ Hh2) as (e2' & He2' & B2). rewrite He2 in He2'. injection He2' as <-.
  cbv zeta. eapply good_bind; [apply good_complex; [auto..| |]|].
  { apply (CT e1 h1); auto. }
  { apply (CT e2 h2); auto. }
  intros tc [Ftc Ecp]. eapply good_bind with (P := full_tc U).
  - pose proof (GB l2 ltac:(cbn [In]; auto)) as W2. pose proof (GB lP ltac:(cbn [In]; auto)) as WP.
    destruct (getBasisFuncCount N l1) as [|k1 r1] eqn:B1'; [exact Ftc|]. destruct (getBasisFuncCount N l2) as [|k2 r2] eqn:B2'; [exact Ftc|]. destruct (getBasisFuncCount N lP) as [|kP rP] eqn:BP'; [exact Ftc|].
    cbn [length Nat.eqb negb andb]. rewrite <- B2', <- BP' in *. apply (good_unscramble U fuel tc l1 l2 lP); auto. rewrite Ecp. apply HL; [discriminate|rewrite B2'; discriminate|rewrite BP'; discriminate].
  - intros tc' Ftc'. apply good_calcJ; auto.
Qed.
End Compute.

Lemma job_good N A lab disk R (finish : params -> bool -> num N -> num N -> num N -> num N -> R) fuel par : sound_stod N ->
  good (mishap N lab disk fuel par) any (run_job_with N A lab disk finish fuel par).
Proof.
  intros Hs. set (U := mishap N lab disk fuel par).
  assert (GP : forall name, In name [pun1 par; pun2 par; punP par] -> good U (fun r => open_pun N disk fuel name = Ok r) (open_pun N disk fuel name)).
  { intros name Ip. pose proof (open_pun_safe N disk fuel name Hs) as S. destruct (open_pun N disk fuel name) as [| | |u|] eqn:Eo; cbn [good]; auto. rewrite (S u eq_refl) in *. right. right. split; [reflexivity|]. right. left. eauto. }
  assert (GL : forall name, In name [log1 par; log2 par; logP par] -> good U (fun r => open_log N disk fuel name = Ok r) (open_log N disk fuel name)).
  { intros name Ip. pose proof (open_log_safe N disk fuel name Hs) as S. destruct (open_log N disk fuel name) as [| | |u|] eqn:Eo; cbn [good]; auto. rewrite (S u eq_refl) in *. right. right. split; [reflexivity|]. left. eauto. }
  unfold run_job_with. eapply good_bind; [apply GP; cbn [In]; auto|intros pP EP]. eapply good_bind; [apply GP; cbn [In]; auto|intros p1 E1]. eapply good_bind; [apply GP; cbn [In]; auto|intros p2 E2].
  eapply good_bind; [apply GL; cbn [In]; auto|intros lP ElP]. eapply good_bind; [apply GL; cbn [In]; auto|intros l1 El1]. eapply good_bind; [apply GL; cbn [In]; auto|intros l2 El2].
  apply (good_compute N A lab finish U); auto.
  - intros Nm. right. right. split; [reflexivity|]. right. right. exists p1, p2, pP, l1, l2, lP. repeat (split; [assumption|]). exact Nm.
  - intros B1 B2 B3 Nl. right. left. split; [reflexivity|]. exists l1, l2, lP. repeat (split; [assumption|]). exact Nl.
  - intros Nd. left. split; [reflexivity|]. exists lP. split; [exact ElP|exact Nd].
  - exact (pun_filled N disk fuel _ _ EP).
  - exact (pun_filled N disk fuel _ _ E1).
  - exact (pun_filled N disk fuel _ _ E2).
  - exact (log_held N disk fuel _ _ ElP).
  - exact (log_held N disk fuel _ _ El1).
  - exact (log_held N disk fuel _ _ El2).
Qed.
