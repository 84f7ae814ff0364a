(** * The files of MainExample.v read as fractions, and the monomers exchanged *)
From Coq Require Import QArith Qcanon.
From Verif Require Import ParserWf ParserCheck CatnipProps ReaderProps ReaderPunProps.
From Verif Require Export MainExample AccPara.
From Verif Require Export ExchangeSpec Exact QcSpec.
From Verif Require Export ReaderModel MainSpec.
Import ReaderExample.
From Verif Require Export StrSpec StrModel.
Open Scope Z_scope.


Definition frac (x : num D) : Qc := Q2Qc (if 0 <=? snd x then inject_Z (fst x * 10 ^ snd x) else Qmake (fst x) (Z.to_pos (10 ^ (- snd x)))).
Definition fractions : nums := {|
  num := Qc; n_zero := frac (0, 0); n_mul := Qcmult;
  n_stod := fun s => match n_stod D s with Ok v => Ok (frac v) | Throw e => Throw e | Exit c => Exit c | Undef u => Undef u | NoFuel => NoFuel end;
  n_atof := fun s => frac (n_atof D s);
  n_pow10 := fun y => frac (1, Qnum (this y)) |}.
Definition q_lab (x : num fractions) : str := dec (Qnum (this x)) ++ $"/" ++ dec (Z.pos (Qden (this x))).
Definition q_arith : arith (num fractions) := qc_arith.
Lemma frac_mul a b : frac (fst a * fst b, snd a + snd b) = Qcmult (frac a) (frac b).
Proof.
  assert (F : forall x, (this (frac x) == (if 0 <=? snd x then inject_Z (fst x * 10 ^ snd x) else Qmake (fst x) (Z.to_pos (10 ^ (- snd x)))))%Q) by (intros x; unfold frac; apply Qred_correct).
  apply Qc_is_canon. rewrite F. unfold Qcmult. cbn [this Q2Qc]. rewrite Qred_correct, !F. clear F. destruct a as [m e], b as [n g]. cbn [fst snd].
  assert (P : forall e, 0 <= e -> 0 < 10 ^ e) by (intros; apply Z.pow_pos_nonneg; lia).
  destruct (Z.leb_spec 0 e), (Z.leb_spec 0 g), (Z.leb_spec 0 (e + g)); try lia; unfold Qeq, inject_Z, Qmult; cbn [Qnum Qden]; rewrite ?Pos2Z.inj_mul, ?Z2Pos.id by (apply P; lia).
  - rewrite Z.pow_add_r by lia. ring.
  - replace (10 ^ e) with (10 ^ (e + g) * 10 ^ (- g)) by (rewrite <- Z.pow_add_r by lia; f_equal; lia). ring.
  - replace (10 ^ (- g)) with (10 ^ e * 10 ^ (- (e + g))) by (rewrite <- Z.pow_add_r by lia; f_equal; lia). ring.
  - replace (10 ^ g) with (10 ^ (e + g) * 10 ^ (- e)) by (rewrite <- Z.pow_add_r by lia; f_equal; lia). ring.
  - replace (10 ^ (- e)) with (10 ^ g * 10 ^ (- (e + g))) by (rewrite <- Z.pow_add_r by lia; f_equal; lia). ring.
  - replace (- (e + g)) with (- e + - g) by lia. rewrite Z.pow_add_r by lia. ring.
Qed.
Lemma digits_len s : forall acc n a k r, digits s acc n = (a, k, r) -> (length r <= length s /\ k + length r <= n + length s)%nat.
Proof.
  induction s as [|c s IH]; intros acc n a k r H; cbn [digits] in H.
  - inversion H; subst. cbn [length]. lia.
  - destruct (digit_of c); [apply IH in H; cbn [length]; lia|]. inversion H; subst. cbn [length]. lia.
Qed.
Lemma decimal_exponent s m e : parse_decimal s = Some (m, e) -> -60 <= e.
Proof.
  unfold parse_decimal. set (t := ltrim s). set (q := match t with c :: t0 => if Ascii.eqb c "-" then (true, t0) else if Ascii.eqb c "+" then (false, t0) else (false, t) | [] => (false, t) end).
  destruct q as [neg b]. destruct (digits b 0 0) as [[a n] r] eqn:E. apply digits_len in E. destruct r as [|c r'].
  - destruct ((n + 0 =? 0)%nat || negb (str_eqb [] []) || (60 <? length b)%nat || (neg && (a =? 0))); [discriminate|]. intros H. inversion H. lia.
  - destruct (Ascii.eqb c ".").
    + destruct (digits r' a 0) as [[b' k] rest] eqn:E2. apply digits_len in E2. destruct (60 <? length b)%nat eqn:L; [rewrite orb_true_r; cbn [orb]; discriminate|]. apply Nat.ltb_ge in L.
      destruct ((n + k =? 0)%nat || negb (str_eqb rest []) || false || (neg && (b' =? 0))); [discriminate|]. intros H. inversion H. cbn [length] in *. lia.
    + destruct ((n + 0 =? 0)%nat || negb (str_eqb (c :: r') []) || (60 <? length b)%nat || (neg && (a =? 0))); [discriminate|]. intros H. inversion H. lia.
Qed.
Definition reads (x : num D) (q : num fractions) : Prop := snd x <= 1000 -> q = frac x.
Lemma fractions_contain disk p d : contain D disk p d -> exists e, contain fractions disk p e /\ drel D fractions reads d e.
Proof.
  intros H. apply (contain_para D fractions reads); [| | |exact H].
  - intros s x E. exists (frac x). cbn [fractions n_stod]. rewrite E. split; [reflexivity|]. intros _. reflexivity.
  - intros s _. reflexivity.
  - intros a b x y Ea Eb. exists (frac x), (frac y). cbn [fractions n_stod]. rewrite Ea, Eb. split; [reflexivity|]. split; [reflexivity|]. intros L.
    cbn [n_mul n_pow10 D decimals fractions] in *. destruct ((snd y =? 0) && (Z.abs (fst y) <=? 300)) eqn:Y; cbn [fst snd] in L.
    + apply andb_true_iff in Y as [Y _]. apply Z.eqb_eq in Y. rewrite frac_mul. f_equal. f_equal. f_equal. destruct y as [m e]. cbn [fst snd] in *. subst e. unfold frac. cbn [fst snd Z.leb Z.compare Z.pow]. rewrite Z.mul_1_r.
      unfold Q2Qc. cbn [this]. unfold Qred, inject_Z. pose proof (Z.ggcd_gcd m 1) as G. pose proof (Z.ggcd_correct_divisors m 1) as K. destruct (Z.ggcd m 1) as [g [aa bb]]. cbn [fst snd] in *. rewrite Z.gcd_1_r in G. subst g. cbn [Qnum]. lia.
    + exfalso. cbn [n_stod D decimals] in Ea. destruct (parse_decimal a) as [[m e]|] eqn:Pa; [|discriminate]. assert (x = (m, e)) as -> by congruence. clear - Pa L. cbn [snd] in L.
      apply decimal_exponent in Pa. lia.
Qed.

Definition small (x : num D) : bool := snd x <=? 1000.
Definition fpts : list (num D * num D * num D) -> list (num fractions * num fractions * num fractions) := map (fun p => (frac (fst (fst p)), frac (snd (fst p)), frac (snd p))).
Lemma pts_frac l l' : Forall2 (prel D fractions reads) l l' -> forallb (fun p => small (fst (fst p)) && small (snd (fst p)) && small (snd p)) l = true -> l' = fpts l.
Proof.
  induction 1 as [|x y l l' H _ IH]; intros F; [reflexivity|]. cbn [forallb] in F. apply andb_true_iff in F as [F1 F2]. unfold fpts. cbn [map]. fold (fpts l). rewrite (IH F2). f_equal. apply andb_true_iff in F1 as [F1 F3]. apply andb_true_iff in F1 as [F1 F4].
  destruct H as (H1 & H2 & H3). destruct y as [[y1 y2] y3]. cbn [fst snd] in *. rewrite (H1 (proj1 (Z.leb_le _ _) F1)), (H2 (proj1 (Z.leb_le _ _) F4)), (H3 (proj1 (Z.leb_le _ _) F3)). reflexivity.
Qed.
(** [finds] for geometries of at most two atoms *)
Lemma ffinds_b q q' ord : (length ord <=? 2)%nat = true ->
  forallb (fun i => match nth_error ord (Z.to_nat (i - 1)) with None => true | Some k => (1 <=? k) && (k <=? 2) &&
    forallb (fun k' => Bool.eqb (forallb (fun j => str_eqb (q_lab (q j i 1)) (q_lab (q' j k' 1))) [1; 2; 3]) (k' =? k)) [1; 2] end) [1; 2] = true ->
  finds q_lab 3 2 q q' ord.
Proof.
  intros L H i k Hk Hi. apply Nat.leb_le in L. assert (Li : (Z.to_nat (i - 1) < length ord)%nat) by (apply nth_error_Some; congruence).
  rewrite forallb_forall in H. specialize (H i). rewrite Hk in H. assert (Ii : In i [1; 2]) by (cbn [In]; lia). specialize (H Ii).
  apply andb_true_iff in H as [H1 H2]. apply andb_true_iff in H1 as [H0 H1]. apply Z.leb_le in H0, H1. split; [lia|]. intros k' Hk'.
  rewrite forallb_forall in H2. specialize (H2 k'). assert (Ik : In k' [1; 2]) by (cbn [In]; lia). specialize (H2 Ik). apply Bool.eqb_prop in H2.
  rewrite <- Z.eqb_eq, <- H2. unfold same_atom. rewrite forallb_forall. split; intros H.
  - intros j Ij. rewrite (H j); [apply str_eqb_refl|]. cbn [In] in Ij. lia.
  - intros j Hj. apply str_eqb_eq, H. cbn [In]. lia.
Qed.

(** ** the command lines with the monomers exchanged *)
Definition ex_line : list ParserSpec.item :=
  [IVal $"-p_P" $"--pun_P" $"runs/dimer.pun"; IVal $"-l_2" $"--log_2" $"m1.log"; IVal $"-p_1" $"--pun_1" $"m2.pun"; IVal $"-l_1" $"--log_1" $"m2.log"; IVal $"-orb_ty_1" $"--orbital_type_1" $"LUMO"].
Definition ex_cp_line : list ParserSpec.item := ex_line ++ [ISw $"-cp" $"--counter_poise"].
Lemma ex_request (l : list ParserSpec.item) (cp : bool) :
  result disk1 l = Ok ([$"m2.log"; $"m1.log"; $"runs/dimer.log"; $"m2.pun"; $"m1.pun"; $"runs/dimer.pun"], ([$"Alpha"; $"Alpha"; $"Alpha"; []; $"LUMO"; $"HOMO"], [0; 0; 0], Some false, cp)) ->
  clean_line disk1 l -> clean_line disk1 l /\ asks disk1 l (exchanged (the_params cp)).
Proof.
  intros R Hc. split; [exact Hc|]. apply result_inv in R as (P & p & Hp & Hpp & H3).
  pose proof (eq_sym (f_equal fst H3)) as Hn. pose proof (eq_sym (f_equal snd H3)) as Hs. cbn [fst snd] in Hn, Hs.
  rewrite <- (params_fields p _ _ _ _ _ _ _ _ _ _ _ _ _ _ _ _ _ Hn Hs : p = exchanged (the_params cp)).
  apply (accepted_asks disk1 $"calc_J" l P p Hc Hp Hpp). intros n I. rewrite Hn in I. cbn [In] in I.
  destruct I as [<-|[<-|[<-|[<-|[<-|[<-|[]]]]]]]; vm_compute; reflexivity.
Qed.
Lemma ex_plain : clean_line disk1 ex_line /\ asks disk1 ex_line (exchanged (the_params false)).
Proof.
  apply ex_request; [vm_compute; reflexivity|]. split; [apply validb_ok; [apply catnip_wf|vm_compute; reflexivity]|]. split; [apply tame_b; vm_compute; reflexivity|].
  intros f I; apply once_b; unfold file_flags in I; cbn [In] in I; destruct I as [<-|[<-|[<-|[<-|[<-|[<-|[]]]]]]]; vm_compute; reflexivity.
Qed.
Lemma ex_cp : clean_line disk1 ex_cp_line /\ asks disk1 ex_cp_line (exchanged (the_params true)).
Proof.
  apply ex_request; [vm_compute; reflexivity|]. split; [apply validb_ok; [apply catnip_wf|vm_compute; reflexivity]|]. split; [apply tame_b; vm_compute; reflexivity|].
  intros f I; apply once_b; unfold file_flags in I; cbn [In] in I; destruct I as [<-|[<-|[<-|[<-|[<-|[<-|[]]]]]]]; vm_compute; reflexivity.
Qed.
