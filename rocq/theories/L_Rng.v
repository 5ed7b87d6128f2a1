(* Facts about PyRng. *)
From Verif Require Import PyNum PyList PyMon PyRng L_Num L_List.

Lemma u01_range q : 0 <= u01 q < 1.
Proof.
  unfold u01. pose proof (Qfloor_le q) as H1. pose proof (Qlt_floor q) as H2.
  rewrite inject_Z_plus in H2. change (inject_Z 1) with 1 in H2. lra.
Qed.
Lemma u01_id q : 0 <= q < 1 -> u01 q == q.
Proof.
  intros H. unfold u01.
  assert (Hf : Qfloor q = 0%Z).
  { pose proof (Qfloor_le q) as H1. pose proof (Qlt_floor q) as H2.
    assert (inject_Z (Qfloor q) < inject_Z 1) by (change (inject_Z 1) with 1; lra).
    rewrite <- Zlt_Qlt in H0.
    assert (inject_Z 0 < inject_Z (Qfloor q + 1)) by (change (inject_Z 0) with 0; lra).
    rewrite <- Zlt_Qlt in H3. lia. }
  rewrite Hf. change (inject_Z 0) with 0. lra.
Qed.
Lemma index_of_lt n q : (0 < n)%nat -> (index_of n q < n)%nat.
Proof.
  intros H. unfold index_of.
  assert (Hm : (0 <= Qfloor q mod Z.of_nat n < Z.of_nat n)%Z) by (apply Z.mod_pos_bound; lia). lia.
Qed.
(* every index is drawn from some tape entry *)
Lemma index_of_onto n i : (i < n)%nat -> index_of n (qofnat i) = i.
Proof.
  intros H. unfold index_of, qofnat. rewrite Qfloor_Z, Z.mod_small by lia. lia.
Qed.
Lemma draws_length n g : length (fst (draws n g)) = n.
Proof.
  revert g; induction n as [|n IH]; intros g; simpl; auto.
  specialize (IH (snd (draw g))). simpl in IH. destruct (draws n _) as [qs g2]; simpl in *. lia.
Qed.
Lemma draws_tape n g : tape (snd (draws n g)) = tape g /\ pos (snd (draws n g)) = (n + pos g)%nat.
Proof.
  revert g; induction n as [|n IH]; intros g; simpl; auto.
  specialize (IH (snd (draw g))). simpl in IH. destruct (draws n _) as [qs g2]; simpl in *.
  destruct IH as [-> ->]. split; [reflexivity|lia].
Qed.
Lemma randoms_length n g : length (fst (randoms n g)) = n.
Proof.
  unfold randoms. pose proof (draws_length n g) as H. destruct (draws n g); simpl in *.
  rewrite map_length; exact H.
Qed.
Lemma randoms_range n g : Forall (fun u => 0 <= u < 1) (fst (randoms n g)).
Proof.
  unfold randoms. destruct (draws n g) as [qs g']; simpl. apply Forall_forall.
  intros u Hu. apply in_map_iff in Hu as (q & <- & _). apply u01_range.
Qed.

Lemma choices_ok {A} (l : list A) k g r g' :
  choices l k g = (Ok r, g') -> length r = k /\ Forall (fun x => In x l) r.
Proof.
  unfold choices. destruct l as [|x l].
  - destruct (Nat.eqb_spec k 0); intros H; inversion H; subst; split; auto.
  - pose proof (draws_length k g) as HL. destruct (draws k g) as [qs g1]; simpl in HL.
    intros H. inversion H; subst. split; [rewrite map_length; reflexivity|].
    apply Forall_forall. intros y Hy. apply in_map_iff in Hy as (q & <- & _).
    exact (nth_In (x :: l) x (index_of_lt (length (x :: l)) q (Nat.lt_0_succ _))).
Qed.
Lemma choices_ok_iff {A} (l : list A) k g :
  (exists r g', choices l k g = (Ok r, g')) <-> (l <> [] \/ k = 0%nat).
Proof.
  unfold choices. destruct l as [|x l].
  - destruct (Nat.eqb_spec k 0); split; intros H; eauto.
    + destruct H as (? & ? & H); discriminate.
    + destruct H; congruence.
  - destruct (draws k g). split; eauto. intros _. left; discriminate.
Qed.
Lemma choice1_ok {A} (l : list A) g r g' : choice1 l g = (Ok r, g') -> In r l.
Proof.
  unfold choice1. destruct l as [|x l]; simpl; intros H; inversion H; subst.
  exact (nth_In (x :: l) x (index_of_lt (length (x :: l)) _ (Nat.lt_0_succ _))).
Qed.

Lemma remove_nth_perm {A} (l : list A) i d :
  (i < length l)%nat -> Permutation l (nth i l d :: remove_nth i l).
Proof.
  revert i; induction l as [|x l IH]; intros [|i] H; simpl in *; try lia; auto.
  rewrite (IH i) at 1 by lia. apply perm_swap.
Qed.
Lemma remove_nth_length {A} (l : list A) i :
  (i < length l)%nat -> length (remove_nth i l) = pred (length l).
Proof. revert i; induction l as [|x l IH]; intros [|i] H; simpl in *; try lia. rewrite IH; lia. Qed.
Lemma take_out_perm {A} k (l : list A) g :
  (k <= length l)%nat ->
  exists rest, Permutation l (fst (take_out k l g) ++ rest) /\ length (fst (take_out k l g)) = k.
Proof.
  revert l g; induction k as [|k IH]; intros l g H; simpl; [exists l; auto|].
  destruct l as [|x l]; simpl in H; [lia|].
  set (i := index_of _ _). assert (Hi : (i < length (x :: l))%nat) by (apply index_of_lt; simpl; lia).
  pose proof (remove_nth_perm (x :: l) i x Hi) as HP.
  pose proof (remove_nth_length (x :: l) i Hi) as HL.
  specialize (IH (remove_nth i (x :: l)) (mkRng (tape g) (S (pos g)))).
  destruct IH as (rest & H1 & H2); [rewrite HL; simpl; lia|].
  cbn [draw]. destruct (take_out k (remove_nth i (x :: l)) _) as [r g2]; cbn [fst] in *.
  exists rest. split; [|simpl; lia]. rewrite HP at 1. cbn [app]. rewrite <- H1. reflexivity.
Qed.
Lemma sample_ok {A} (l : list A) k g r g' :
  sample l k g = (Ok r, g') -> length r = k /\ exists rest, Permutation l (r ++ rest).
Proof.
  unfold sample. destruct (Nat.ltb_spec (length l) k); [discriminate|].
  destruct (take_out_perm k l g) as (rest & H1 & H2); [lia|].
  destruct (take_out k l g) as [r0 g0]; cbn [fst] in *. intros E; inversion E; subst. eauto.
Qed.
Lemma shuffle_perm {A} (l : list A) g : Permutation l (fst (shuffle l g)).
Proof.
  unfold shuffle. destruct (take_out_perm (length l) l g) as (rest & H1 & H2); [lia|].
  assert (rest = []).
  { apply Permutation_length in H1. rewrite app_length in H1. destruct rest; auto; simpl in *; lia. }
  subst. rewrite app_nil_r in H1. exact H1.
Qed.

(* weighted choice: the drawn index is in range and has positive weight *)
Lemma search_cdf_spec w acc u i :
  Forall (fun p => 0 <= p) w -> acc <= u -> u < acc + qsum w ->
  exists j p, search_cdf w acc u i = (i + j)%nat /\ nth_error w j = Some p /\ 0 < p.
Proof.
  revert acc i; induction w as [|p w IH]; intros acc i HF H1 H2; simpl in *; [lra|].
  inversion HF; subst. destruct (qlt_spec u (acc + p)) as [H|H].
  - exists 0%nat, p. simpl. repeat split; auto; lra.
  - destruct (IH (acc + p) (S i)) as (j & p' & E1 & E2 & E3); auto; try lra.
    exists (S j), p'. simpl. rewrite E1. repeat split; auto. lia.
Qed.
Lemma choices_p_ok {A} (l : list A) k w g r g' :
  choices_p l k w g = (Ok r, g') ->
  length r = k /\ length w = length l /\ Forall (fun p => 0 <= p) w /\ qsum w == 1 /\
  Forall (fun x => exists i p, nth_error l i = Some x /\ nth_error w i = Some p /\ 0 < p) r.
Proof.
  unfold choices_p. destruct (Nat.eqb_spec (length w) (length l)) as [HL|]; [|discriminate].
  unfold weights_ok. destruct (forallb (qle 0) w) eqn:EF; [|discriminate].
  destruct (qeq_spec (qsum w) 1) as [HS|]; [|discriminate]. simpl.
  assert (HF : Forall (fun p => 0 <= p) w).
  { apply Forall_forall. intros p Hp. rewrite forallb_forall in EF. apply qle_iff; auto. }
  destruct l as [|x l]; [discriminate|].
  pose proof (draws_length k g) as HD. destruct (draws k g) as [qs g1]; simpl in HD.
  intros H; inversion H; subst. rewrite map_length. repeat split; auto.
  apply Forall_forall. intros y Hy. apply in_map_iff in Hy as (q & <- & _).
  pose proof (u01_range q). destruct (search_cdf_spec w 0 (u01 q) 0) as (j & p & E1 & E2 & E3); auto; try lra.
  exists j, p. rewrite E1. simpl (0 + j)%nat. repeat split; auto.
  change (nth_error (x :: l) j = Some (nth j (x :: l) x)).
  apply nth_error_nth'. rewrite <- HL. apply nth_error_Some. congruence.
Qed.
