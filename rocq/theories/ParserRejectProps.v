(** * C93: a rejected command line *)
From Verif Require Import StrFacts ArgsFacts ParserWf ParserStateWf ParserRun ParserLine ParserEffect ParserReject OptionHistory ParserProps.
From Verif Require Export ParserRejectSpec.
Open Scope Z_scope.

(** [parse_on] is [parse] with the parser an exception leaves *)
Theorem C93_same : forall E (P : parser E) args,
  match parse args P with
  | Ok P' => parse_on args P = (P', Ok tt)
  | Throw e => exists P', parse_on args P = (P', Throw e)
  | Exit n => exists P', parse_on args P = (P', Exit n)
  | Undef u => exists P', parse_on args P = (P', Undef u)
  | NoFuel => exists P', parse_on args P = (P', NoFuel)
  end.
Proof.
  intros E P args. pose proof (parse_on_ok args P) as H. unfold result in H. destruct (parse_on args P) as [P' o]. cbn [fst snd] in H.
  destruct (parse args P), o as [[]| | | |]; cbn [bind] in H; try discriminate; [apply Ok_inj in H|..]; try (exists P'); congruence.
Qed.
Print Assumptions C93_same.

(** what was dealt with before the error has its effect, the rest has none - with two exceptions *)
Theorem C93_rejected : forall E (P P' : parser E) args e, regular P -> parse_on args P = (P', Throw e) ->
  ((length args <= 1)%nat /\ P' = P) \/
  exists prog l rest, args = prog :: words l ++ rest /\ valid P l /\ ends_before P l rest /\ stuck P l rest e /\
    (forall f, (forall w, switch_word P f w rest -> ~ bool_word w) -> reads_as P l P' f) /\
    (forall f w, switch_word P f w rest -> bool_word w -> reads_word P' f w) /\
    (forall f, found P' f <-> found P f \/
       (has_kind P f KFile /\ exists w, (In (f, w) (given l) \/ file_word P f w rest) /\ file_exists E w = true)).
Proof.
  intros E P P' args e R0 H. pose proof (regular_reg _ R0) as R.
  assert (Sz : size_t_values P' = size_t_values P). { pose proof (parse_on_steady args P) as Q. rewrite H in Q. apply Q. }
  destruct (parse_on_rejected _ _ _ _ R H) as [?|(prog & l & rest & P1 & Ea & V & Rn & L & W & Eb & D)]; [auto|right].
  assert (R1 : reg P1) by (eapply alike_reg; eauto).
  assert (Ra : forall f, getStr P' f = getStr P1 f /\ getInt P' f = getInt P1 f /\ getDouble P' f = getDouble P1 f -> reads_as P l P' f).
  { intros f (G1 & G2 & G3). constructor.
    - intros w [K|K] Lw; rewrite G1; pose proof (run_value _ _ _ _ _ _ Rn R K V Lw) as S; cbn [stored] in S; unfold getStr; now rewrite S.
    - intros w v K Lw Sv. rewrite G2. pose proof (run_value _ _ _ _ _ _ Rn R K V Lw) as (u & S1 & S2). unfold getInt. rewrite S2. congruence.
    - intros w v K Lw Sv. rewrite G3. pose proof (run_value _ _ _ _ _ _ Rn R K V Lw) as (u & S1 & S2). unfold getDouble. rewrite S2. congruence.
    - intros K I. rewrite G2. destruct (run_switch _ _ _ f Rn R K V) as (_ & B & _). unfold getInt. now rewrite B.
    - intros Ng. rewrite G1, G2, G3. destruct (run_same _ _ _ f Rn Ng) as (A & B & C & D'). unfold getStr, getInt, getDouble. rewrite A, B, C.
      change (m_find f (switch_arg P1)) with (m_find f (args_of P1 KSwitch)). rewrite (D' KSwitch). auto.
    - unfold getSize_t. now rewrite Sz. }
  assert (Kf : forall f, m_find f (file_arg P) <> None <-> has_kind P f KFile).
  { intros f. unfold has_kind. cbn [args_of]. destruct (m_find f (file_arg P)); split; eauto; try congruence. intros [b B]; discriminate. }
  exists prog, l, rest. split; [auto|]. split; [auto|]. split; [auto|].
  destruct D as [(-> & -> & -> & f & Rf & Nf)|Rs].
  - split.
    { destruct (run_required _ _ _ f Rn R W L V) as (A & B & C). apply (stuck_file P l f); [apply A, Rf|intros F; apply Nf, B; auto|].
      intros w I. destruct (file_exists E w) eqn:Fe; auto. exfalso. apply Nf, B. right. split; [|eauto].
      intros N. apply A in Rf. destruct Rf as (t & Rf & _). rewrite (file_none _ _ _ _ (g_wf _ R) N) in Rf. discriminate. }
    split; [intros g _; apply Ra; auto|]. split; [intros g w (y & q & Q & _); discriminate|].
    intros g. destruct (run_required _ _ _ g Rn R W L V) as (_ & B & _). rewrite B, Kf. clear. split.
    + intros [A|[A (w & I & Fw)]]; [auto|right; split; [auto|]]. exists w. auto.
    + intros [A|[A (w & [I|(y & q & Q & _)] & Fw)]]; [auto| |discriminate]. right. split; eauto.
  - destruct (residue_effect _ _ _ _ _ R R1 L Rs) as (_ & _ & _ & Fd & G & Wd). split; [eapply residue_stuck; eauto|].
    split; [intros f Hf; apply Ra, G, Hf|]. split; [exact Wd|]. intros f. rewrite Fd.
    destruct (run_required _ _ _ f Rn R W L V) as (_ & B & _). rewrite B, Kf. clear. split.
    + intros [[A|[A (w & I & Fw)]]|(w & Q & Fw)]; [auto|right; split; eauto|right; split; [destruct Q as (x & r & _ & _ & Q); exact Q|eauto]].
    + intros [A|[A (w & [I|Q] & Fw)]]; [auto|left; right; split; eauto|right; eauto].
Qed.
Print Assumptions C93_rejected.

(** the parser is as good as before: the same lines are valid, and the same files required *)
Theorem C93_usable : forall E (P P' : parser E) args e, regular P -> parse_on args P = (P', Throw e) ->
  regular P' /\ (forall l, valid P' l <-> valid P l) /\ (forall f, required P' f <-> required P f) /\
  (forall f k, has_kind P' f k <-> has_kind P f k).
Proof.
  intros E P P' args e R0 H. pose proof (regular_reg _ R0) as R.
  assert (B : built E P') by (eapply B_rejected; [apply R0|exact H]).
  assert (Q : alike P P' /\ forall f, required P' f <-> required P f).
  { destruct (parse_on_rejected _ _ _ _ R H) as [[_ ->]|(prog & l & rest & P1 & Ea & V & Rn & L & W & Eb & D)]; [split; [apply alike_refl|tauto]|].
    assert (R1 : reg P1) by (eapply alike_reg; eauto).
    assert (Rq : forall f, required P1 f <-> required P f) by (intros f; apply (run_required _ _ _ f Rn R W L V)).
    destruct D as [(-> & -> & _)|Rs]; [auto|].
    destruct (residue_effect _ _ _ _ _ R R1 L Rs) as (L2 & _ & Rq2 & _). split; [eapply alike_trans; eauto|]. intros f. rewrite Rq2. apply Rq. }
  destruct Q as [L Rq]. pose proof (alike_reg _ _ L (built_wf _ B) R) as R'.
  split; [constructor; [exact B|apply R'|apply R'|intros f k K; destruct (g_reg _ R' f k K) as (c & C); exists c; exact C]|].
  split; [intros l; apply (alike_valid _ _ _ L)|]. split; [exact Rq|apply (l_kind _ _ L)].
Qed.
Print Assumptions C93_usable.

(** the options keep their values, but for those parse() writes *)
Theorem C93_options : forall E (P P' : parser E) args e f n pr o, regular P -> parse_on args P = (P', Throw e) -> ~ written_by_parse pr o ->
  getFlagArgOptValue P' f n pr o = getFlagArgOptValue P f n pr o.
Proof.
  intros E P P' args e f n pr o R0 H N. destruct (C93_usable E P P' args e R0 H) as (R1 & _ & _ & K).
  pose proof (built_wf _ (r_built _ R0)) as W. pose proof (built_wf _ (r_built _ R1)) as W'.
  destruct (name_kind n) as [[k ->]|Nn].
  - destruct (akind_dec k ADouble) as [->|Nk].
    + rewrite !read_none; auto; intros k Nk Q; apply name_inj in Q; congruence.
    + rewrite (read_eq _ _ _ _ _ W Nk), (read_eq _ _ _ _ _ W' Nk).
      pose proof (parse_on_lasts args P) as L. rewrite H in L. cbn [fst] in L.
      destruct (m_find f (margs k P)) as [a|] eqn:F.
      * destruct (L k f a F) as (a' & -> & Q). apply Q, N.
      * destruct (m_find f (margs k P')) as [a'|] eqn:F'; auto. exfalso.
        assert (X : exists kk, (forall Q, args_of Q kk = margs (E := E) k Q)).
        { destruct k; [exists KInt|exists KDouble|exists KStr|exists KSwitch|exists KFile]; reflexivity. }
        destruct X as (kk & X). assert (C : has_kind P' f kk) by (exists a'; rewrite X; exact F'). apply K in C as (b & C). rewrite X in C. congruence.
  - rewrite !read_none; auto.
Qed.
Print Assumptions C93_options.

(** a further line is read as on the parser before: what it gives has the values it gives *)
Theorem C93_again_partial : forall E (P P' : parser E) args e prog l, regular P -> parse_on args P = (P', Throw e) ->
  valid P l -> ~ all_notes (words l) -> (forall f, required P f -> found P f \/ exists w, In (f, w) (given l)) ->
  exists P1 P2, parse (prog :: words l) P = Ok P1 /\ parse (prog :: words l) P' = Ok P2 /\
   (forall f w, has_kind P f KStr \/ has_kind P f KFile -> last_value f l w -> getStr P1 f = Ok w /\ getStr P2 f = Ok w) /\
   (forall f w v, has_kind P f KInt -> last_value f l w -> stoi w = Ok v -> getInt P1 f = Ok v /\ getInt P2 f = Ok v) /\
   (forall f w v, has_kind P f KDouble -> last_value f l w -> e_stod E w = Ok v -> getDouble P1 f = Ok v /\ getDouble P2 f = Ok v) /\
   (forall f, has_kind P f KSwitch -> In f (switched l) -> getInt P1 f = Ok 1 /\ getInt P2 f = Ok 1) /\
   (forall f, not_given f l -> getStr P2 f = getStr P' f /\ getInt P2 f = getInt P' f /\ getDouble P2 f = getDouble P' f) /\
   (forall f, getSize_t P2 f = getSize_t P1 f).
Proof.
  intros E P P' args e prog l R0 H V N Q. destruct (C93_usable E P P' args e R0 H) as (R1 & Va & Rq & K).
  assert (Q' : forall f, required P' f -> found P' f \/ exists w, In (f, w) (given l)).
  { intros f Rf. apply Rq in Rf. destruct (Q f Rf) as [F|F]; auto. left.
    destruct (C93_rejected E P P' args e R0 H) as [[_ ->]|(pr & l0 & rest & _ & _ & _ & _ & _ & _ & Fd)]; [auto|]. apply Fd. auto. }
  pose proof (proj2 (Va l) V) as V'.
  destruct (C53_command_line E P prog l R0 V N Q) as (P1 & H1 & A1 & A2 & A3 & A4 & A5).
  destruct (C53_command_line E P' prog l R1 V' N Q') as (P2 & H2 & B1 & B2 & B3 & B4 & B5).
  exists P1, P2. split; [auto|]. split; [auto|]. split; [|split; [|split; [|split; [|split]]]].
  - intros f w [Kf|Kf] Lw; (split; [apply A1; auto|apply B1; auto; rewrite !K; auto]).
  - intros f w v Kf Lw Sv. split; [eapply A2; eauto|eapply B2; eauto; apply K; auto].
  - intros f w v Kf Lw Sv. split; [eapply A3; eauto|eapply B3; eauto; apply K; auto].
  - intros f Kf I. split; [apply (C56_switch_on_partial E P prog l f P1); auto|apply (C56_switch_on_partial E P' prog l f P2); auto; apply K; auto].
  - exact B4.
  - intros f. rewrite A5, B5. pose proof (parse_on_steady args P) as S. rewrite H in S. destruct S as (_ & _ & _ & _ & _ & S). cbn [fst] in S. unfold getSize_t. now rewrite S.
Qed.
Print Assumptions C93_again_partial.

(** ** a parser with a required file and a number *)
Definition all_files : env := mkEnv Z Z.ltb (-1000) 1000 dec stoi (fun _ => true).
Definition reader_made : outcome (parser all_files) :=
  P <- ArgumentParser all_files [[$"--in"]; [$"--n"; $"-n"]; [$"--loud"]] ;;
  P <- setFlagArgOpt_int $"--in" $"ARGUMENT_FILE" $"PROPERTY_FILE_EXIST" $"FILE_MUST_EXIST" 1 P ;;
  P <- setFlagArgOpt_set $"--in" $"ARGUMENT_FILE" $"PROPERTY_FILE_EXT" $"ALLOWED_FILE_EXT" [$".pun"] P ;;
  P <- setFlagArgOpt_int $"--n" $"ARGUMENT_INT" $"PROPERTY_INT" $"MIN" 0 P ;;
  P <- addFlagArg $"--loud" $"ARGUMENT_SWITCH" P ;;
  Ok (setFlagDefaultValue_int $"--n" 1 P).
Definition reader : parser all_files := match reader_made with Ok P => P | _ => empty_parser all_files end.
Lemma made_ok {A} (o : outcome A) (d : A) : is_ok o = true -> o = Ok (match o with Ok v => v | _ => d end).
Proof. destruct o; [reflexivity|discriminate..]. Qed.
Lemma made_built (Q : parser all_files) : reader_made = Ok Q -> built all_files Q.
Proof.
  unfold reader_made. intros H.
  apply bind_ok in H as (P1 & H1 & H). apply bind_ok in H as (P2 & H2 & H). apply bind_ok in H as (P3 & H3 & H). apply bind_ok in H as (P4 & H4 & H). apply bind_ok in H as (P5 & H5 & H).
  apply Ok_inj in H. subst Q. apply B_def_int. eapply B_add; [|exact H5]. eapply B_int; [|exact H4]. eapply B_set; [|exact H3]. eapply B_int; [|exact H2]. eapply B_new. exact H1.
Qed.
Lemma reader_built : built all_files reader.
Proof. apply made_built. unfold reader. apply made_ok. vm_compute. reflexivity. Qed.
Lemma reader_regular : regular reader.
Proof. apply regularb_ok; [apply reader_built|vm_compute; reflexivity]. Qed.
Definition left_over (args : list str) : parser all_files := fst (parse_on args reader).
Definition thrown {A} (r : parser all_files * outcome A) : option exn := match snd r with Throw e => Some e | _ => None end.
Lemma thrown_ok {A} (r : parser all_files * outcome A) e : thrown r = Some e -> r = (fst r, Throw e).
Proof. destruct r as [P [| | | |]]; cbn; congruence. Qed.
Lemma has_kindb {E} (P : parser E) f k : wf P -> existsb (str_eqb f) (keys P k) = true -> has_kind P f k.
Proof. intros W H. apply has_keys; auto. apply existsb_str. exact H. Qed.
Definition both {A} (o o' : outcome A) (Q : A -> A -> Prop) : Prop := match o, o' with Ok x, Ok y => Q x y | _, _ => False end.
Lemma both_ok {A} (o o' : outcome A) Q : both o o' Q -> exists x y, o = Ok x /\ o' = Ok y /\ Q x y.
Proof. destruct o, o'; cbn; try contradiction. eauto. Qed.

(** refuted: a rejected line leaves its values, which a later line then seems to have given *)
Theorem C93_values_stay_refuted : exists E (P P' P1 P2 : parser E) args e prog l f, regular P /\ parse_on args P = (P', Throw e) /\
  valid P l /\ not_given f l /\ has_kind P f KInt /\ parse (prog :: words l) P = Ok P1 /\ parse (prog :: words l) P' = Ok P2 /\
  getInt P1 f = Ok 1 /\ getInt P2 f = Ok 7.
Proof.
  set (l := [IVal $"--in" $"--in" $"a.pun"]).
  assert (C : both (parse ($"prog" :: words l) reader) (parse ($"prog" :: words l) (left_over [$"prog"; $"-n"; $"7"; $"--bad"]))
     (fun P1 P2 => getInt P1 $"--n" = Ok 1 /\ getInt P2 $"--n" = Ok 7)) by (vm_compute; auto).
  apply both_ok in C as (P1 & P2 & H1 & H2 & H3 & H4).
  exists all_files, reader, (left_over [$"prog"; $"-n"; $"7"; $"--bad"]), P1, P2, [$"prog"; $"-n"; $"7"; $"--bad"], InvalidArgument, $"prog", l, $"--n".
  split; [apply reader_regular|]. split; [apply thrown_ok; vm_compute; reflexivity|].
  split; [apply validb_ok; [apply built_wf, reader_built|vm_compute; reflexivity]|].
  split. { split; [intros w [Q|[]]; vm_compute in Q; discriminate|intros []]. }
  split; [apply has_kindb; [apply built_wf, reader_built|vm_compute; reflexivity]|].
  split; [exact H1|]. split; [exact H2|]. split; [exact H3|exact H4].
Qed.
Print Assumptions C93_values_stay_refuted.
(** refuted: a file that was refused for its extension counts as found, and a later line without the required file is accepted *)
Theorem C93_refused_file_refuted : exists E (P P' P2 : parser E) args e prog l f, regular P /\ parse_on args P = (P', Throw e) /\
  required P f /\ ~ found P f /\ valid P l /\ not_given f l /\
  parse (prog :: words l) P = Throw RuntimeError /\ parse (prog :: words l) P' = Ok P2 /\ getStr P2 f = Throw InvalidArgument.
Proof.
  set (l := [IVal $"-n" $"--n" $"7"]).
  assert (C : both (parse ($"prog" :: words l) (left_over [$"prog"; $"--in"; $"a.txt"])) (parse ($"prog" :: words l) (left_over [$"prog"; $"--in"; $"a.txt"]))
     (fun P2 _ => getStr P2 $"--in" = Throw InvalidArgument)) by (vm_compute; auto).
  apply both_ok in C as (P2 & _ & H2 & _ & H3).
  exists all_files, reader, (left_over [$"prog"; $"--in"; $"a.txt"]), P2, [$"prog"; $"--in"; $"a.txt"], InvalidArgument, $"prog", l, $"--in".
  split; [apply reader_regular|]. split; [apply thrown_ok; vm_compute; reflexivity|].
  split. { exists $"1". split; [vm_compute; reflexivity|discriminate]. }
  split. { intros (t & Q & N). vm_compute in Q. apply N. inversion Q. reflexivity. }
  split; [apply validb_ok; [apply built_wf, reader_built|vm_compute; reflexivity]|].
  split. { split; [intros w [Q|[]]; vm_compute in Q; discriminate|intros []]. }
  split; [apply throws_ok; vm_compute; reflexivity|]. split; [exact H2|exact H3].
Qed.
Print Assumptions C93_refused_file_refuted.
Lemma required_file {E} (P : parser E) f : wf P -> required P f -> has_kind P f KFile.
Proof.
  intros W Rf. destruct (m_find f (file_arg P)) as [a|] eqn:F; [exists a; exact F|].
  exfalso. destruct Rf as (t & Rf & _). rewrite (file_none _ _ _ _ W F) in Rf. discriminate.
Qed.
Lemma reader_files : keys reader KFile = [$"--in"]. Proof. vm_compute. reflexivity. Qed.
(** the cases of [stuck] and of C93_again_partial occur *)
Example C93_example : regular reader /\
  thrown (parse_on [$"prog"; $"-n"; $"7"; $"--bad"] reader) = Some InvalidArgument /\
  thrown (parse_on [$"prog"; $"-n"] reader) = Some RuntimeError /\
  thrown (parse_on [$"prog"; $"-n"; $"-7"] reader) = Some InvalidArgument /\
  thrown (parse_on [$"prog"; $"-n"; $"99999999999"] reader) = Some OutOfRange /\
  thrown (parse_on [$"prog"; $"-n"; $"7"] reader) = Some RuntimeError /\
  thrown (parse_on [$"prog"; $"--loud"; $"OFF"] reader) = Some InvalidArgument /\
  getStr (left_over [$"prog"; $"--loud"; $"OFF"]) $"--loud" = Ok $"OFF" /\
  (let l := [IVal $"--in" $"--in" $"a.pun"; ISw $"--loud" $"--loud"] in valid reader l /\ ~ all_notes (words l) /\
     forall f, required reader f -> found reader f \/ exists w, In (f, w) (given l)).
Proof.
  split; [apply reader_regular|]. do 7 (split; [vm_compute; reflexivity|]).
  split; [apply validb_ok; [apply built_wf, reader_built|vm_compute; reflexivity]|].
  split. { intros H. apply Forall_inv in H. vm_compute in H. intuition discriminate. }
  intros f Rf. right. exists $"a.pun". left.
  pose proof (required_file _ _ (built_wf _ reader_built) Rf) as K. apply has_keys in K; [|apply built_wf, reader_built].
  rewrite reader_files in K. destruct K as [K|[]]. rewrite <- K. reflexivity.
Qed.
