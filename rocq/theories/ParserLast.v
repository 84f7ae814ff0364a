(** * Property C52, continued: a flag named by several entries *)
From Coq Require Import Sorted.
From Verif Require Import ParserProps.
From Verif Require Export HelpProps.
Open Scope Z_scope.

(** dictionary order of lists of words (the order of std::set<std::vector<std::string>>): one list is a proper
    prefix of the other, or they differ first at a word that comes earlier in the dictionary *)
Definition entry_before (a b : list str) : Prop :=
  exists p r s, a = p ++ r /\ b = p ++ s /\
    match r, s with
    | [], _ :: _ => True
    | x :: _, y :: _ => dictionary x y
    | _, _ => False
    end.
Lemma vec_ltb_before a : forall b, vec_ltb a b = true <-> entry_before a b.
Proof.
  induction a as [|x a IH]; intros [|y b]; split; intros H.
  - discriminate H.
  - destruct H as (p & r & s & A & B & C). destruct p; [|discriminate A]. cbn [app] in A, B. subst r s. destruct C.
  - exists [], [], (y :: b). repeat split.
  - reflexivity.
  - discriminate H.
  - destruct H as (p & r & s & A & B & C). destruct p; [|discriminate B]. cbn [app] in A, B. subst r s. destruct C.
  - cbn [vec_ltb] in H. apply orb_true_iff in H as [H|H].
    + exists [], (x :: a), (y :: b). split; [reflexivity|]. split; [reflexivity|]. apply ltb_dictionary, H.
    + apply andb_true_iff in H as [H1 H2]. apply str_eqb_eq in H1 as ->. apply IH in H2 as (p & r & s & -> & -> & C). exists (y :: p), r, s. auto.
  - cbn [vec_ltb]. apply orb_true_iff. destruct H as (p & r & s & A & B & C). destruct p as [|z p]; cbn [app] in A, B.
    + subst r s. left. apply ltb_dictionary, C.
    + injection A as -> A. injection B as -> B. right. apply andb_true_iff. split; [apply str_eqb_eq; reflexivity|]. apply IH. exists p, r, s. auto.
Qed.
Lemma vec_ltb_trans a : forall b c, vec_ltb a b = true -> vec_ltb b c = true -> vec_ltb a c = true.
Proof.
  induction a as [|x a IH]; intros [|y b] [|z c]; cbn [vec_ltb]; try congruence. rewrite !orb_true_iff, !andb_true_iff. intros [H1|[H1 H2]] [H3|[H3 H4]].
  - left. eapply ltb_trans; eauto.
  - apply str_eqb_eq in H3 as ->. auto.
  - apply str_eqb_eq in H1 as ->. auto.
  - apply str_eqb_eq in H1 as ->. apply str_eqb_eq in H3 as ->. right. split; [apply str_eqb_eq; reflexivity|eauto].
Qed.
Lemma vec_ltb_total a : forall b, vec_ltb a b = true \/ a = b \/ vec_ltb b a = true.
Proof.
  induction a as [|x a IH]; intros [|y b]; cbn [vec_ltb]; auto. destruct (ltb_total x y) as [H|[->|H]]; [rewrite H; auto| |rewrite H; auto].
  rewrite !orb_true_iff, !andb_true_iff. destruct (IH b) as [H|[->|H]]; [left; right|right; left|right; right; right]; auto; split; auto; apply str_eqb_eq; reflexivity.
Qed.
Lemma vec_ltb_irrefl a : vec_ltb a a = false.
Proof. induction a as [|x a IH]; cbn [vec_ltb]; [reflexivity|]. rewrite ltb_irrefl, IH, andb_false_r. reflexivity. Qed.
Lemma insert_sorted k l : StronglySorted entry_before l -> StronglySorted entry_before (vs_insert k l).
Proof.
  induction 1 as [|h t Hs IH Hf]; cbn [vs_insert]; [repeat constructor|]. destruct (vec_eqb k h) eqn:Q; [constructor; auto|].
  destruct (vec_ltb k h) eqn:L.
  - constructor; [constructor; auto|]. constructor; [apply vec_ltb_before, L|]. rewrite Forall_forall in *. intros x Hx. apply vec_ltb_before. eapply vec_ltb_trans; [exact L|]. apply vec_ltb_before. auto.
  - constructor; [exact IH|]. rewrite Forall_forall in *. intros x Hx. apply in_vs_insert in Hx as [->|Hx]; [|auto]. apply vec_ltb_before.
    destruct (vec_ltb_total k h) as [H|[->|H]]; [congruence| |exact H]. rewrite (proj2 (vec_eqb_iff h h) eq_refl) in Q. discriminate Q.
Qed.
Lemma last_entry E l : forall (P P' : parser E), for_each l read_entry P = Ok P' -> StronglySorted entry_before l ->
  forall items f a d, good_entry items -> entry_is items f a d -> In items l \/ m_find f (flags P) = Some (a, d) ->
  (forall items' a' d', In items' l -> entry_is items' f a' d' -> items' = items \/ (In items l /\ entry_before items' items)) ->
  m_find f (flags P') = Some (a, d).
Proof.
  induction l as [|x t IH]; intros P P' H S0 items f a d Gi Hi Hin Hlast; cbn [for_each] in H.
  - inversion H; subst. destruct Hin as [[]|Hin]. exact Hin.
  - apply bind_ok in H as (P1 & H1 & H). inversion S0; subst. destruct (read_entry_ok x P) as [G1 G2]. destruct (good_dec x) as [G|G]; [|rewrite G2 in H1 by auto; discriminate].
    destruct (G1 G) as (e & R & Fn & P2 & E2 & F1 & _). rewrite H1 in E2. inversion E2; subst P2. pose proof (entry_of _ _ R Fn) as En. fold (entry_is x (full_flag e) (short_flag e) (desc e)) in En.
    apply (IH P1 P' H) with (items := items); auto.
    + destruct Hin as [[->|Hin]|Hin]; [|auto|].
      * right. destruct (entry_unique _ _ _ _ _ _ _ Gi Hi En) as (-> & -> & ->). rewrite F1. apply find_set_eq.
      * rewrite F1, find_set. destruct (str_dec f (full_flag e)) as [->|Nf]; [|auto].
        destruct (Hlast x _ _ (or_introl eq_refl) En) as [->|[[->|I] _]]; [| |auto]; right; destruct (entry_unique _ _ _ _ _ _ _ Gi Hi En) as (_ & -> & ->); reflexivity.
    + intros items' a' d' I' Hi'. destruct (Hlast items' a' d' (or_intror I') Hi') as [->|[[->|I] B]]; [auto| |auto].
      exfalso. match goal with F : Forall (entry_before items) t |- _ => rewrite Forall_forall in F; specialize (F items' I'); rename F into Fx end.
      apply vec_ltb_before in B, Fx. pose proof (vec_ltb_trans _ _ _ B Fx) as C. rewrite vec_ltb_irrefl in C. discriminate C.
Qed.
(** the entries form a set in dictionary order; if several name the same flag, the last one in dictionary order
    gives its abbreviation and its description (also for --help, which has an entry of its own) *)
Theorem C52_last : forall E fl P, ArgumentParser E fl = Ok P -> StronglySorted entry_before fl ->
  let all := [$"--help"; $"-h"; $"Display help message"] :: fl in
  forall items f a d, In items all -> entry_is items f a d ->
  (forall items' a' d', In items' all -> entry_is items' f a' d' -> items' = items \/ entry_before items' items) ->
  m_find f (flags P) = Some (a, d).
Proof.
  intros E fl P H S0 all items f a d I Hi Hlast. pose proof (proj2 (C52_accepts E fl)) as Acc.
  assert (G : Forall good_entry fl).
  { rewrite Forall_forall. intros x Hx. destruct (good_dec x) as [G|G]; [exact G|]. rewrite Acc in H; [discriminate H|]. intros F. rewrite Forall_forall in F. auto. }
  assert (Gi : good_entry items) by (destruct I as [<-|I]; [exact help_good|rewrite Forall_forall in G; auto]).
  assert (M : forall x, In x (vs_insert help_entry fl) <-> In x all) by (intros x; rewrite in_vs_insert; unfold all, help_entry; cbn [In]; intuition).
  unfold ArgumentParser in H. apply (last_entry E _ _ _ H (insert_sorted _ _ S0) items f a d Gi Hi); [left; apply M, I|].
  intros items' a' d' I' Hi'. apply M in I'. destruct (Hlast items' a' d' I' Hi') as [->|B]; [auto|right; split; [apply M, I|exact B]].
Qed.
Print Assumptions C52_last.
Definition two_helps : list (list str) := [[$"--help"; $"-H"; $"usage"]; [$"--help"; $"-h"; $"Ask"]].
Example C52_last_example : forall E, StronglySorted entry_before two_helps /\ Forall good_entry two_helps /\
  m_find $"--help" (flags_of (ArgumentParser E two_helps)) = Some ($"-h", $"Display help message").
Proof.
  intros E. split; [|split].
  - unfold two_helps. repeat constructor. apply vec_ltb_before. reflexivity.
  - repeat constructor.
  - vm_compute. reflexivity.
Qed.
