(** * C119: parsing ends on every command line *)
From Verif Require Import StrFacts ArgsFacts ParserWf ParserStateWf ParserRun ParserLine ParserMore ParserEffect ParserReject ParserProps ParserRejectProps ParserFacts ParserCheck ParserThrow ParserExit.
From Verif Require Import MainSafe.
From Verif Require Export ParserRejectSpec.
From Verif Require Export StrSpec StrModel.
Open Scope Z_scope.

Ltac bk H x := apply bind_ok in H as (x & ?H & H).
Section Ends.
Context {E : env} (Hq : forall s, e_stod E s <> NoFuel).
Implicit Types (P : parser E).
Lemma bind_fuel {A B} (o : outcome A) (k : A -> outcome B) : o <> NoFuel -> bind o k = NoFuel -> exists a, o = Ok a /\ k a = NoFuel.
Proof. intros N. destruct o as [a|e|c'|u|]; cbn [bind]; intros H; try discriminate; [eauto|exfalso; exact (N eq_refl)]. Qed.
Lemma take_fuel k f w P : take k f w P <> NoFuel.
Proof.
  unfold take. destruct (m_find f (args_of P k)) as [a|]; [|discriminate]. destruct k; try discriminate; intros H.
  - apply bind_fuel in H as (? & _ & H); [discriminate|]. apply quiet_valid_str.
  - apply bind_fuel in H as (? & _ & H); [|apply quiet_stoi]. apply bind_fuel in H as (? & _ & H); [discriminate|]. apply quiet_valid_int.
  - apply bind_fuel in H as (? & _ & H); [|apply Hq]. apply bind_fuel in H as (? & _ & H); [discriminate|]. apply quiet_valid_dbl.
  - apply bind_fuel in H as (? & _ & H); [discriminate|]. apply quiet_valid_str.
Qed.
Lemma positive_fuel w : positive_str w <> NoFuel.
Proof. unfold positive_str. destruct (existsb _ _); [discriminate|]. destruct (existsb _ _); discriminate. Qed.
Lemma loop_fuel fuel : forall pre rest al P, reg P -> (length rest < fuel)%nat -> parse_loop fuel (pre ++ rest) (length pre) al P <> NoFuel.
Proof.
  induction fuel as [|n IH]; intros pre rest al P R Lf H; [lia|]. cbn [parse_loop] in H.
  rewrite nth_app_len in H. destruct rest as [|x r]; cbn [hd_error] in H; [discriminate|]. cbn [length] in Lf.
  destruct (informational_eq x) as [I1 I2].
  assert (Note : (if (al =? length (pre ++ x :: r))%nat then Exit 0 else parse_loop n (pre ++ x :: r) (S (length pre)) (S al) P) = NoFuel -> False).
  { intros H2. destruct (Nat.eqb_spec al (length (pre ++ x :: r))); [discriminate|].
    replace (pre ++ x :: r) with ((pre ++ [x]) ++ r) in * by (rewrite <- app_assoc; reflexivity).
    replace (S (length pre)) with (length (pre ++ [x])) in H2 by (rewrite app_length; simpl; lia).
    apply (IH (pre ++ [x]) r (S al) P R) in H2; [auto|lia]. }
  destruct (is_help x) eqn:Eh; [apply Note; auto|]. destruct (is_version x) eqn:Ev; [discriminate|].
  destruct (is_citation x) eqn:Ec; [apply Note; auto|]. clear Note.
  destruct (not_known P x R) as [N|(k & K & Sx)].
  { rewrite (parseArg_unknown _ _ _ x) in H by (auto; rewrite nth_app_len; auto). discriminate. }
  set (f := resolve P x) in *.
  assert (Kd : k = KSwitch \/ k <> KSwitch) by (destruct k; auto; right; discriminate).
  destruct Kd as [->|Nk].
  - pose proof K as (a & F). cbn [args_of] in F.
    rewrite (parseArg_sw _ _ _ x f a R F) in H by (auto; rewrite nth_app_len; auto). rewrite nth_app_len1 in H.
    assert (Flip : parse_loop n (pre ++ x :: r) (S (length pre)) al (flip f P) = NoFuel -> False).
    { clear H. intros H. destruct (flip_alike f P (g_wf _ R)) as [L W].
      replace (pre ++ x :: r) with ((pre ++ [x]) ++ r) in * by (rewrite <- app_assoc; reflexivity).
      replace (S (length pre)) with (length (pre ++ [x])) in H by (rewrite app_length; simpl; lia).
      apply (IH (pre ++ [x]) r al (flip f P)) in H; auto; [|lia]. eapply alike_reg; eauto. }
    destruct r as [|w q]; cbn [hd_error] in H.
    + cbn [bind fst snd] in H. apply Flip; auto.
    + destruct (is_a_flag P w) eqn:Fw; [cbn [bind fst snd] in H; apply Flip; auto|].
      apply bind_fuel in H as (s & H0 & H).
      2:{ intros C. apply bind_fuel in C as (a' & _ & C); [|apply quiet_valid_str]. apply bind_fuel in C as (b & _ & C); [discriminate|]. apply positive_fuel. }
      bk H0 a'. bk H0 b. inversion H0; subst s. clear H0. cbn [fst snd] in H.
      assert (Nw : ~ a_flag P w). { intros C. apply is_a_flag_iff in C; [congruence|apply R]. }
      pose proof (after_switch P f w a a' (if b then 1 else 0) R F Nw) as AS. cbv zeta in AS.
      destruct (not_info w (bool_not_info w (positive_bool _ _ H2))) as (B1 & B2 & B3).
      destruct n as [|n]; [lia|]. cbn [parse_loop] in H.
      replace (S (length pre)) with (length pre + 1)%nat in H by lia. rewrite nth_app_len1 in H. cbn [hd_error] in H.
      rewrite B1, B2, B3 in H. rewrite (parseArg_unknown _ _ _ w) in H; [discriminate|exact AS|rewrite nth_app_len1; auto].
  - rewrite (parseArg_val _ _ _ x f k R K Nk) in H by (auto; rewrite nth_app_len; auto). rewrite nth_app_len1 in H.
    destruct r as [|w q]; cbn [hd_error] in H; [discriminate|]. cbn [length] in Lf.
    destruct (take k f w P) as [P1|e|c'|u|] eqn:T; cbn [bind fst snd] in H; try discriminate; [|exact (take_fuel _ _ _ _ T)].
    destruct (take_alike _ _ _ _ _ T (g_wf _ R)) as [L W].
    replace (pre ++ x :: w :: q) with ((pre ++ [x; w]) ++ q) in * by (rewrite <- app_assoc; reflexivity).
    replace (S (S (length pre))) with (length (pre ++ [x; w])) in H by (rewrite app_length; simpl; lia).
    apply (IH (pre ++ [x; w]) q al P1) in H; auto; [|lia]. eapply alike_reg; eauto.
Qed.
End Ends.

(** the loop over the words is finite *)
Theorem C119_finite : forall E (P : parser E) args, (forall s, e_stod E s <> NoFuel) -> regular P -> parse args P <> NoFuel.
Proof.
  intros E P args Hq R0 H. pose proof (regular_reg _ R0) as R. destruct args as [|prog [|x r]]; try discriminate.
  change (parse (prog :: x :: r) P) with (P2 <- parse_loop (length (prog :: x :: r)) ([prog] ++ x :: r) (length [prog]) 2 P ;; postParseCheck P2 ;;; Ok P2) in H.
  apply bind_fuel in H as (P2 & El & H); [|apply loop_fuel; auto; cbn [length]; lia].
  assert (W2 : wf P2) by (eapply parse_loop_wf; [apply R|exact El]).
  destruct (post_iff P2 W2) as [[Q _]|[Q _]]; rewrite Q in H; discriminate.
Qed.
Print Assumptions C119_finite.
(** every command line ends in one of three ways, and each of them says what the line is;
    the only other outcome is undefined behaviour (see C48_set_overload for where it comes from) *)
Theorem C119_ways : forall E (P : parser E) args, (forall s, (exists v, e_stod E s = Ok v) \/ (exists e, e_stod E s = Throw e)) -> regular P ->
  (exists P', parse args P = Ok P' /\ exists prog l, args = prog :: words l /\ valid P l /\ ~ all_notes (words l)) \/
  (exists e, parse args P = Throw e /\
     ((length args <= 1)%nat \/ exists prog l rest, args = prog :: words l ++ rest /\ valid P l /\ ends_before P l rest /\ stuck P l rest e)) \/
  (parse args P = Exit 0 /\ exists prog ws, args = prog :: ws /\
     ((ws <> [] /\ all_notes ws) \/ exists l x rest, ws = words l ++ x :: rest /\ valid P l /\ version x /\ ends_before P l (x :: rest))) \/
  (exists u, parse args P = Undef u).
Proof.
  intros E P args H R0. pose proof (regular_reg _ R0) as R.
  assert (Hf : forall s, e_stod E s <> NoFuel) by (intros s C; destruct (H s) as [(v & Q)|(e & Q)]; congruence).
  assert (Hx : forall s c, e_stod E s <> Exit c) by (intros s c C; destruct (H s) as [(v & Q)|(e & Q)]; congruence).
  pose proof (C119_finite E P args Hf R0) as F.
  pose proof (C93_same E P args) as Sm. pose proof (parse_ok P args) as Po.
  assert (Ex : forall c, parse args P = Exit c -> exists prog ws, args = prog :: ws /\ c = 0 /\ ((ws <> [] /\ all_notes ws) \/ exists l x rest, ws = words l ++ x :: rest /\ valid P l /\ version x /\ ends_before P l (x :: rest))).
  { intros c C. destruct args as [|prog ws]; [discriminate C|]. exists prog, ws. split; [reflexivity|]. apply (proj1 (C57_exactly E P prog ws c Hx R0)). exact C. }
  pose proof (C93_rejected E P) as Rj. revert F Sm Po Ex. generalize (parse args P). intros o F Sm Po Ex. destruct o as [P'|e|c|u|].
  - left. exists P'. split; [reflexivity|]. destruct (Po P' R eq_refl) as (prog & l & A & V & N & _). exists prog, l. auto.
  - right. left. exists e. split; [reflexivity|]. destruct Sm as (P' & Sm). destruct (Rj P' args e R0 Sm) as [[A _]|(prog & l & rest & A & V & B & S & _)]; [left; exact A|right]. exists prog, l, rest. auto.
  - right. right. left. destruct (Ex c eq_refl) as (prog & ws & A & -> & B). split; [reflexivity|]. exists prog, ws. auto.
  - right. right. right. exists u. reflexivity.
  - exfalso. exact (F eq_refl).
Qed.
Print Assumptions C119_ways.
(** the parser of calc_J has no undefined case *)
Theorem C119_three_ways : forall E args, (forall s, (exists v, e_stod E s = Ok v) \/ (exists e, e_stod E s = Throw e)) ->
  (exists P', parse args (catnip E) = Ok P' /\ exists prog l, args = prog :: words l /\ valid (catnip E) l /\ ~ all_notes (words l)) \/
  (exists e, parse args (catnip E) = Throw e /\
     ((length args <= 1)%nat \/ exists prog l rest, args = prog :: words l ++ rest /\ valid (catnip E) l /\ ends_before (catnip E) l rest /\ stuck (catnip E) l rest e)) \/
  (parse args (catnip E) = Exit 0 /\ exists prog ws, args = prog :: ws /\
     ((ws <> [] /\ all_notes ws) \/ exists l x rest, ws = words l ++ x :: rest /\ valid (catnip E) l /\ version x /\ ends_before (catnip E) l (x :: rest))).
Proof.
  intros E args H. assert (Hd : sound_double E) by (intros s u C; destruct (H s) as [(v & Q)|(e & Q)]; congruence).
  destruct (C119_ways E (catnip E) args H catnip_regular) as [A|[A|[A|(u & A)]]]; [left; exact A|right; left; exact A|right; right; exact A|].
  exfalso. exact (def_parse E Hd args (catnip E) (catnip_settled E _ catnip_ok) u A).
Qed.
Print Assumptions C119_three_ways.
(** undefined behaviour needs a flag whose choices are to be enforced "with no value at all" *)
Section Emptied.
Context {E : env}.
Lemma emptied_or {A} (l : list A) (Q : A -> Prop) : (forall x, Q x \/ ~ Q x) -> (exists x, In x l /\ Q x) \/ forall x, In x l -> ~ Q x.
Proof.
  intros D. induction l as [|x l [(y & I & H)|N]]; [right; intros ? []|left; exists y; cbn [In]; auto|].
  destruct (D x) as [H|H]; [left; exists x; cbn [In]; auto|right; intros y [<-|I]; auto].
Qed.
Definition emptied (p : prop (list str)) : Prop := p_kind p = PChoice /\ getPropOption p $"STRING_CHOICE_ENFORCED" = Ok [].
Lemma emptied_dec p : emptied p \/ ~ emptied p.
Proof.
  unfold emptied. destruct (p_kind p); try (right; intros [? _]; discriminate). destruct (getPropOption p _) as [[|x t]| | | |]; try (right; intros [_ ?]; discriminate). left. auto.
Qed.
Lemma map_settled (m : smap (arg E)) : sorted m -> settled_map E m \/ exists f a p, m_find f m = Some a /\ In p (a_set E a) /\ emptied p.
Proof.
  intros Sm. destruct (emptied_or m (fun it => exists p, In p (a_set E (snd it)) /\ emptied p)) as [([f a] & I & p & Ip & Em)|N].
  - intros it. destruct (emptied_or (a_set E (snd it)) emptied emptied_dec) as [H|H]; [left; exact H|right]. intros (p & Ip & Em). exact (H p Ip Em).
  - right. exists f, a, p. split; [apply find_in; auto|auto].
  - left. intros f a F. apply Forall_forall. intros p Ip K C. apply (find_in _ _ _ Sm) in F. apply (N _ F). exists p. split; [exact Ip|]. split; [exact K|]. unfold getPropOption. rewrite C. reflexivity.
Qed.
End Emptied.
Theorem C119_undefined : forall E (P : parser E) args u, (forall s u, e_stod E s <> Undef u) -> regular P -> parse args P = Undef u ->
  exists k f a p, m_find f (args_of P k) = Some a /\ In p (a_set E a) /\ p_kind p = PChoice /\ getPropOption p $"STRING_CHOICE_ENFORCED" = Ok [].
Proof.
  intros E P args u Hd R0 H. pose proof (g_wf _ (regular_reg _ R0)) as W.
  assert (M : forall k, sorted (args_of P k)) by (intros k; destruct W; destruct k; cbn [args_of]; match goal with W : wf_map _ ?m |- sorted ?m => apply W end).
  assert (L : forall k, settled_map E (args_of P k) \/ exists k f a p, m_find f (args_of P k) = Some a /\ In p (a_set E a) /\ p_kind p = PChoice /\ getPropOption p $"STRING_CHOICE_ENFORCED" = Ok []).
  { intros k. destruct (map_settled (args_of P k) (M k)) as [Q|(f & a & p & Q1 & Q2 & Q3 & Q4)]; [auto|right; exists k, f, a, p; auto]. }
  destruct (L KStr) as [S1|]; [|assumption]. destruct (L KSwitch) as [S2|]; [|assumption]. destruct (L KInt) as [S3|]; [|assumption].
  destruct (L KDouble) as [S4|]; [|assumption]. destruct (L KFile) as [S5|]; [|assumption]. cbn [args_of] in *.
  exfalso. apply (def_parse E Hd args P (Build_settled E P S1 S2 S3 S4 S5) u H).
Qed.
Print Assumptions C119_undefined.
(** all three ways occur *)
Example C119_example : (forall s, (exists v, e_stod world s = Ok v) \/ (exists e, e_stod world s = Throw e)) /\ regular (catnip world) /\
  (exists P', parse [$"calc_J"; $"-s_1"; $"Beta"; $"-h"] (catnip world) = Ok P') /\
  parse [$"calc_J"; $"-s_1"; $"Gamma"; $"--version"] (catnip world) = Throw InvalidArgument /\
  parse [$"calc_J"; $"-s_1"; $"Beta"; $"--version"; $"-s_1"] (catnip world) = Exit 0.
Proof.
  split. { intros s. change (e_stod world s) with (stoi s). pose proof (quiet_stoi s) as [Q1 Q2]. pose proof (def_stoi s) as D. destruct (stoi s) as [v|e|c|u|]; [left; eauto|right; eauto|exfalso; exact (Q1 c eq_refl)|exfalso; exact (D u eq_refl)|exfalso; auto]. }
  split; [apply catnip_regular|]. split; [apply okb_ok; vm_compute; reflexivity|]. split; [apply throws_ok; vm_compute; reflexivity|apply exits_ok; vm_compute; reflexivity].
Qed.
(** such a flag can be configured, and then an ordinary value is undefined behaviour *)
Example C119_undefined_example : exists P : parser world, regular P /\ setFlagArgOpt_set $"--spin_1" $"ARGUMENT_STRING" $"PROPERTY_STRING_CHOICE" $"STRING_CHOICE_ENFORCED" [] (catnip world) = Ok P /\
  parse [$"calc_J"; $"--spin_1"; $"Alpha"] P = Undef BadIterator.
Proof.
  assert (K : match setFlagArgOpt_set $"--spin_1" $"ARGUMENT_STRING" $"PROPERTY_STRING_CHOICE" $"STRING_CHOICE_ENFORCED" [] (catnip world) with
    Ok P => regularb P && match parse [$"calc_J"; $"--spin_1"; $"Alpha"] P with Undef BadIterator => true | _ => false end | _ => false end = true) by (vm_compute; reflexivity).
  pose proof (fun P' => B_set $"--spin_1" $"ARGUMENT_STRING" $"PROPERTY_STRING_CHOICE" $"STRING_CHOICE_ENFORCED" [] (catnip world) P' (r_built _ (catnip_regular (E := world)))) as B.
  revert K B. generalize (setFlagArgOpt_set $"--spin_1" $"ARGUMENT_STRING" $"PROPERTY_STRING_CHOICE" $"STRING_CHOICE_ENFORCED" [] (catnip world)). intros o K B.
  destruct o as [P| | | |]; try discriminate K. apply andb_prop in K as [K1 K2]. exists P. split; [apply regularb_ok; [apply B; reflexivity|exact K1]|]. split; [reflexivity|].
  revert K2. generalize (parse [$"calc_J"; $"--spin_1"; $"Alpha"] P). intros o. destruct o as [| | |[]|]; try discriminate. reflexivity.
Qed.
(** C55 for every parser in which no flag's choices are emptied *)
Theorem C55_value_every_parser : forall E (P : parser E) prog l x f k w rest, (forall s, (exists v, e_stod E s = Ok v) \/ (exists e, e_stod E s = Throw e)) -> regular P ->
  (forall k f a p, m_find f (args_of P k) = Some a -> In p (a_set E a) -> p_kind p = PChoice -> getPropOption p $"STRING_CHOICE_ENFORCED" <> Ok []) ->
  valid P l -> ~ informational x -> stands_for P x f -> has_kind P f k -> k <> KSwitch -> ~ admissible P f w ->
  exists e, parse (prog :: words l ++ x :: w :: rest) P = Throw e /\ refused P f w e.
Proof.
  intros E P prog l x f k w rest H R0 Ne V NI S K N A. pose proof (g_wf _ (regular_reg _ R0)) as W.
  assert (Hd : sound_double E) by (intros s u C; destruct (H s) as [(v & Q)|(e & Q)]; congruence).
  assert (M : forall k, sorted (args_of P k)) by (intros k0; destruct W; destruct k0; cbn [args_of]; match goal with W : wf_map _ ?m |- sorted ?m => apply W end).
  assert (L : forall k, settled_map E (args_of P k)).
  { intros k0. destruct (map_settled (args_of P k0) (M k0)) as [Q|(g & a & p & Q1 & Q2 & Q3 & Q4)]; [exact Q|]. exfalso. exact (Ne k0 g a p Q1 Q2 Q3 Q4). }
  apply (value_throws P prog l x f k w rest); auto.
  - apply regular_reg; auto.
  - exact (Build_settled E P (L KStr) (L KSwitch) (L KInt) (L KDouble) (L KFile)).
  - intros _. split; intros; intros C; destruct (H w) as [(v & Q)|(e & Q)]; congruence.
Qed.
Print Assumptions C55_value_every_parser.
Lemma settled_unemptied E (P : parser E) : MainSafe.settled E P ->
  forall k f a p, m_find f (args_of P k) = Some a -> In p (a_set E a) -> p_kind p = PChoice -> getPropOption p $"STRING_CHOICE_ENFORCED" <> Ok [].
Proof.
  intros S k f a p F I K C.
  assert (Sa : settled_arg E a) by (destruct S as [S1 S2 S3 S4 S5]; destruct k; [exact (S1 f a F)|exact (S2 f a F)|exact (S3 f a F)|exact (S4 f a F)|exact (S5 f a F)]).
  unfold settled_arg in Sa. rewrite Forall_forall in Sa. apply (Sa p I K). unfold getPropOption in C. destruct (m_find _ (p_options p)); [congruence|discriminate].
Qed.
(** the parser of calc_J is one; a value it refuses: C55_exception_example *)
Example C55_value_every_example : regular (catnip world) /\
  (forall k f a p, m_find f (args_of (catnip world) k) = Some a -> In p (a_set world a) -> p_kind p = PChoice -> getPropOption p $"STRING_CHOICE_ENFORCED" <> Ok []).
Proof. split; [apply catnip_regular|]. exact (settled_unemptied world (catnip world) (catnip_settled world _ catnip_ok)). Qed.
