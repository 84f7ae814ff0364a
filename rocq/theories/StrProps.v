(** * Properties C38-C44, C74: string_support *)
From Verif Require Import StrFacts.
Open Scope Z_scope.

(** ** C38 *)
(** The text removed is white space, at the ends only, and nothing white is left there. *)
Theorem C38_trim_exact : forall s, trimmed s = trim s /\ exists a b, white a /\ white b /\ s = a ++ trim s ++ b /\
  begins_solid (trim s) /\ ends_solid (trim s).
Proof. intros s. split; [reflexivity|exact (trim_spec s)]. Qed.
Print Assumptions C38_trim_exact.
Theorem C38_ltrimmed_exact : forall s, exists a, white a /\ s = a ++ ltrimmed s /\ begins_solid (ltrimmed s).
Proof. exact ltrim_spec. Qed.
Print Assumptions C38_ltrimmed_exact.
Theorem C38_rtrimmed_exact : forall s, exists b, white b /\ s = rtrimmed s ++ b /\ ends_solid (rtrimmed s).
Proof. exact rtrim_spec. Qed.
Print Assumptions C38_rtrimmed_exact.
(** the result is the only possible one *)
Theorem C38_trim_unique : forall a b s, white a -> white b -> begins_solid s -> ends_solid s ->
  trim (a ++ s ++ b) = s /\ ltrimmed (a ++ s) = s /\ rtrimmed (s ++ b) = s.
Proof.
  intros; split; [apply trim_unique; auto|]. split; [apply ltrim_unique; auto|apply rtrim_unique; auto].
Qed.
Print Assumptions C38_trim_unique.
Theorem C38_idempotent : forall s, trim (trim s) = trim s /\ ltrimmed (ltrimmed s) = ltrimmed s /\
  rtrimmed (rtrimmed s) = rtrimmed s.
Proof. intros; split; [apply trim_idem|split; [apply ltrim_idem|apply rtrim_idem]]. Qed.
Print Assumptions C38_idempotent.
Example C38_example : trim (tab :: $" a b " ++ [nl]) = $"a b" /\ ltrimmed $"  x " = $"x " /\ rtrimmed $"  x " = $"  x".
Proof. repeat split. Qed.

(** ** C39 *)
Theorem C39_split_words : forall g0 l, woven g0 l -> splitSt (weave g0 l) = map fst l.
Proof. exact splitSt_weave. Qed.
Print Assumptions C39_split_words.
Theorem C39_every_string : forall s, exists g0 l, s = weave g0 l /\ woven g0 l /\ splitSt s = map fst l /\ Forall word (splitSt s).
Proof.
  intros s. destruct (weave_exists s) as (g0 & l & E & W). exists g0, l. repeat split; auto.
  - rewrite E. apply splitSt_weave; auto.
  - apply splitSt_words.
Qed.
Print Assumptions C39_every_string.
Example C39_example : woven $" " [($"Alpha", $"  "); ($"occ.", tab :: $" "); ($"-1.5", [])] /\
  splitSt $" Alpha  occ. -1.5" = [$"Alpha"; $"occ."; $"-1.5"].
Proof.
  split; [|reflexivity]. cbn [woven]. unfold white, word, no_white.
  repeat split; try congruence; cbn; intuition (subst; auto; try discriminate).
Qed.

(** ** C40 *)
Theorem C40_path_split : forall p, exists d f, getPath p = Ok d /\ lastStringInPath p = Ok f /\ d ++ f = p /\
  ~ In "/"%char f /\ (d = [] \/ exists d', d = d' ++ ["/"%char]).
Proof. exact path_split. Qed.
Print Assumptions C40_path_split.
Example C40_example : getPath $"/a/b c/d.log" = Ok $"/a/b c/" /\ lastStringInPath $"/a/b c/d.log" = Ok $"d.log" /\
  getPath $"x" = Ok [] /\ lastStringInPath $"x/" = Ok [].
Proof. repeat split. Qed.

(** ** C41 *)
Theorem C41_prefix : forall s n, storable s -> 0 <= n <= Z.of_nat (length s) ->
  exists a b, firstN s n = Ok a /\ cut_beg s n = Ok b /\ a ++ b = s /\ Z.of_nat (length a) = n.
Proof.
  intros s n S H. destruct (split_at s n H) as (a & b & -> & L & _).
  destruct (prefix_ok a b n S L). exists a, b. repeat split; auto.
Qed.
Print Assumptions C41_prefix.
Theorem C41_suffix : forall s n, storable s -> 0 <= n <= Z.of_nat (length s) ->
  exists a b, cut_end s n = Ok a /\ lastN s n = Ok b /\ a ++ b = s /\ Z.of_nat (length b) = n.
Proof.
  intros s n S H. destruct (split_at s (Z.of_nat (length s) - n)) as (a & b & E & _ & L); [unfold len; lia|].
  unfold len in L. subst s. destruct (suffix_ok a b n S) as [E1 E2]; [unfold len; lia|].
  exists a, b. repeat split; auto. lia.
Qed.
Print Assumptions C41_suffix.
(** outside the range: lastN and cut_beg throw, firstN and cut_end return the whole string *)
Theorem C41_out_of_range : forall s n, storable s -> is_int n -> n < 0 \/ Z.of_nat (length s) < n ->
  lastN s n = Throw OutOfRange /\ cut_beg s n = Throw OutOfRange /\ firstN s n = Ok s /\ cut_end s n = Ok s.
Proof. intros s n S I [H|H]; [apply negative_n|apply too_long]; auto. Qed.
Print Assumptions C41_out_of_range.
Example C41_example : firstN $"dimer.log" 5 = Ok $"dimer" /\ cut_beg $"dimer.log" 5 = Ok $".log" /\
  cut_end $"dimer.log" 4 = Ok $"dimer" /\ lastN $"dimer.log" 4 = Ok $".log" /\ lastN $"ab" 3 = Throw OutOfRange.
Proof. repeat split. Qed.

(** ** C42 *)
Theorem C42_found : forall s sub, foundSubStrInStr s sub = true <-> occurs sub s.
Proof. exact found_iff. Qed.
Print Assumptions C42_found.
Theorem C42_first_occurrence : forall occ s a b, first_at occ s a b ->
  grabStrBeforeFirstOccurance s occ = Ok a /\ grabStrAfterFirstOccurance s occ = Ok b.
Proof. exact grab_first. Qed.
Print Assumptions C42_first_occurrence.
Theorem C42_first_exists : forall occ s, occurs occ s -> exists a b, first_at occ s a b.
Proof. exact occurs_first_at. Qed.
Print Assumptions C42_first_exists.
Theorem C42_no_occurrence : forall occ s, ~ occurs occ s ->
  grabStrBeforeFirstOccurance s occ = Ok s /\ grabStrAfterFirstOccurance s occ = Ok [].
Proof. exact grab_first_none. Qed.
Print Assumptions C42_no_occurrence.
Example C42_example : first_at $"ab" $"xabyab" $"x" $"yab" /\ ~ occurs $"z" $"xab" /\
  grabStrAfterFirstOccurance $"xabyab" $"ab" = Ok $"yab".
Proof.
  split; [|split].
  - split; auto. intros [|c a'] b' E; [inversion E|simpl; lia].
  - rewrite <- found_iff. discriminate.
  - reflexivity.
Qed.

(** ** C43 *)
(** full property: as below for every non-empty pattern *)
Theorem C43_single_character_partial : forall c s a b, last_at [c] s a b ->
  grabStrBeforeLastOccurance s [c] = Ok a /\ grabStrAfterLastOccurance s [c] = Ok b /\
  grabStrBeforeLastOccuranceInclusive s [c] = Ok (a ++ [c]) /\ grabStrAfterLastOccuranceInclusive s [c] = Ok (c :: b).
Proof. exact grab_last. Qed.
Print Assumptions C43_single_character_partial.
Theorem C43_no_occurrence_partial : forall c s, ~ occurs [c] s ->
  grabStrBeforeLastOccurance s [c] = Ok s /\ grabStrAfterLastOccurance s [c] = Ok [] /\
  grabStrBeforeLastOccuranceInclusive s [c] = Ok s /\ grabStrAfterLastOccuranceInclusive s [c] = Ok [].
Proof. exact grab_last_none. Qed.
Print Assumptions C43_no_occurrence_partial.
(** what they do for any pattern: split at the last character that occurs anywhere in the pattern *)
Theorem C43_character_set : forall set a c b, In c set -> (forall x, In x b -> ~ In x set) ->
  grabStrBeforeLastOccurance (a ++ c :: b) set = Ok a /\ grabStrAfterLastOccurance (a ++ c :: b) set = Ok b /\
  grabStrBeforeLastOccuranceInclusive (a ++ c :: b) set = Ok (a ++ [c]) /\
  grabStrAfterLastOccuranceInclusive (a ++ c :: b) set = Ok (c :: b).
Proof. exact grab_last_set. Qed.
Print Assumptions C43_character_set.
(** hence wrong for every pattern of two or more different characters, already on the pattern itself *)
Theorem C43_longer_refuted : forall x c d, x <> d -> ~ In d [x; c] ->
  last_at [x; c] [x; c; d; x; d] [] [d; x; d] /\
  grabStrAfterLastOccurance [x; c; d; x; d] [x; c] = Ok [d] /\ [d] <> [d; x; d].
Proof.
  intros x c d H1 H2. split; [|split].
  - split; auto. intros a' b' E.
    destruct a' as [|y1 [|y2 [|y3 [|y4 a']]]]; simpl in *; try lia; exfalso.
    + inversion E; subst. apply H2; simpl; auto.
    + inversion E; subst. apply H2; simpl; auto.
    + inversion E; subst. apply H2; simpl; auto.
    + inversion E as [[F1 F2 F3 F4 F5]]. destruct a' as [|y5 a']; [discriminate F5|]. inversion F5; subst.
      destruct a'; discriminate.
  - destruct (grab_last_set [x; c] [x; c; d] x [d]) as (_ & E & _); auto; [now left|].
    intros y [<-|[]]; auto.
  - intros E; discriminate.
Qed.
Print Assumptions C43_longer_refuted.
(** no character of the pattern in the string *)
Theorem C43_no_character : forall set s, (forall x, In x s -> ~ In x set) ->
  grabStrBeforeLastOccurance s set = Ok s /\ grabStrAfterLastOccurance s set = Ok [] /\
  grabStrBeforeLastOccuranceInclusive s set = Ok s /\ grabStrAfterLastOccuranceInclusive s set = Ok [].
Proof.
  intros set s H. apply find_last_of_none in H.
  unfold grabStrBeforeLastOccurance, grabStrAfterLastOccurance, grabStrBeforeLastOccuranceInclusive, grabStrAfterLastOccuranceInclusive.
  rewrite H. auto.
Qed.
Print Assumptions C43_no_character.
(** A pattern of two or more characters: the part before the last occurrence is
    never the one returned, neither is the part from it on; the part after it,
    and the part up to its end, are returned exactly when no character of the
    pattern comes later in the string. *)
Theorem C43_longer_exact_refuted : forall occ s a b, last_at occ s a b -> (2 <= length occ)%nat ->
  grabStrBeforeLastOccurance s occ <> Ok a /\
  grabStrAfterLastOccuranceInclusive s occ <> Ok (occ ++ b) /\
  (grabStrAfterLastOccurance s occ = Ok b <-> forall x, In x b -> ~ In x occ) /\
  (grabStrBeforeLastOccuranceInclusive s occ = Ok (a ++ occ) <-> forall x, In x b -> ~ In x occ).
Proof.
  intros occ s a b (E & _) Hl.
  destruct occ as [|o occ0 _] using rev_ind; [cbn [length] in Hl; lia|].
  rewrite app_length in Hl. cbn [length] in Hl.
  assert (H0 : (1 <= length occ0)%nat) by lia. clear Hl.
  set (occ := occ0 ++ [o]) in *.
  assert (Ho : In o occ) by (apply in_or_app; right; now left).
  assert (Hd : (forall x, In x b -> ~ In x occ) \/ exists b1 c b2, b = b1 ++ c :: b2 /\ In c occ /\ (forall x, In x b2 -> ~ In x occ)).
  { destruct (find_last_of occ b) as [k|] eqn:F.
    - right. apply find_last_of_some in F. destruct F as (b1 & c & b2 & F1 & F2 & F3 & F4).
      exists b1, c, b2. auto.
    - left. apply find_last_of_none. auto. }
  destruct Hd as [Hd|(b1 & c & b2 & -> & Hc & Hb2)].
  - destruct (grab_last_set occ (a ++ occ0) o b Ho Hd) as (G1 & G2 & G3 & G4).
    assert (Es : s = (a ++ occ0) ++ o :: b) by (rewrite E; unfold occ; rewrite <- !app_assoc; reflexivity).
    rewrite <- Es in G1, G2, G3, G4. rewrite G1, G2, G3, G4.
    split; [|split; [|split; split; auto]].
    + intros [= X]. apply (f_equal (@length _)) in X. rewrite app_length in X. lia.
    + intros [= X]. apply (f_equal (@length _)) in X. unfold occ in X. rewrite !app_length in X. cbn [length] in X. lia.
    + intros _. unfold occ. rewrite <- app_assoc. reflexivity.
  - destruct (grab_last_set occ (a ++ occ ++ b1) c b2 Hc Hb2) as (G1 & G2 & G3 & G4).
    assert (Es : s = (a ++ occ ++ b1) ++ c :: b2) by (rewrite E; rewrite <- !app_assoc; reflexivity).
    rewrite <- Es in G1, G2, G3, G4. rewrite G1, G2, G3, G4.
    assert (Hin : In c (b1 ++ c :: b2)) by (apply in_or_app; right; now left).
    split; [|split; [|split; split]].
    + intros [= X]. apply (f_equal (@length _)) in X. unfold occ in X. rewrite !app_length in X. cbn [length] in X. lia.
    + intros [= X]. apply (f_equal (@length _)) in X. unfold occ in X. rewrite !app_length in X. cbn [length] in X. lia.
    + intros [= X]. apply (f_equal (@length _)) in X. rewrite !app_length in X. cbn [length] in X. lia.
    + intros X. exfalso. exact (X c Hin Hc).
    + intros [= X]. apply (f_equal (@length _)) in X. rewrite !app_length in X. cbn [length] in X. lia.
    + intros X. exfalso. exact (X c Hin Hc).
Qed.
Print Assumptions C43_longer_exact_refuted.
Example C43_longer_example : last_at $".log" $"a.log.txt" $"a" $".txt" /\ grabStrBeforeLastOccurance $"a.log.txt" $".log" = Ok $"a.log".
Proof.
  split; [|reflexivity]. split; [reflexivity|]. intros a' b' H.
  do 10 (destruct a' as [|? a']; [first [apply Nat.leb_le; reflexivity|discriminate H]|]). discriminate H.
Qed.
Example C43_example : grabStrAfterLastOccurance $"a.log.txt" $".log" = Ok $"txt" /\
  grabStrBeforeLastOccurance $"mon.1.log" $"." = Ok $"mon.1".
Proof. repeat split. Qed.

(** ** C44 *)
Theorem C44_letters : forall s, isAlphabetical s = true <-> s <> [] /\ forall c, In c s -> In c letters.
Proof. exact isAlphabetical_iff. Qed.
Print Assumptions C44_letters.
Example C44_example : isAlphabetical $"Alpha" = true /\ isAlphabetical $"Al2" = false /\ isAlphabetical [] = false.
Proof. repeat split. Qed.

(** ** C74 *)
(** A NUL-terminated text with whatever follows it in its buffer. *)
Theorem C74_remove_space : forall t r, ~ In "000"%char t ->
  exists x, removeSpace (t ++ "000"%char :: r) = Ok (without_blanks t ++ "000"%char :: x ++ r) /\
            length (without_blanks t ++ "000"%char :: x ++ r) = length (t ++ "000"%char :: r).
Proof. exact removeSpace_ok. Qed.
Print Assumptions C74_remove_space.
(** without a terminator the function reads past the buffer *)
Theorem C74_unterminated : forall b, ~ In "000"%char b -> removeSpace b = Undef OutOfBounds.
Proof. intros b H. apply (removeSpace_unterminated_loop (length b)); auto; lia. Qed.
Print Assumptions C74_unterminated.
Example C74_example : removeSpace ($" a b" ++ ["000"; "x"]%char) = Ok ($"ab" ++ ["000"; "b"; "000"; "x"]%char).
Proof. reflexivity. Qed.
