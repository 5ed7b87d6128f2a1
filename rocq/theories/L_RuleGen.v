(* Proofs about M_RuleGen. *)
From Verif Require Import PyNum PyList PyMon PyRng L_Num L_List L_Rng M_Matching S_Matching L_Matching M_RuleGen.

(* ----- estimate_bounds ----- *)
Lemma col_min_length x X : Forall (fun r => length r = length x) X -> length (col_min x X) = length x.
Proof.
  intros H. revert x H. induction X as [|r X IH]; intros x H; simpl; auto.
  inversion H as [|? ? Hr HF]; subst.
  assert (HL : length (map2 qmin x r) = length x) by (apply map2_length; congruence).
  rewrite IH; [exact HL|]. eapply Forall_impl; [|exact HF]. simpl; intros; congruence.
Qed.
Lemma col_max_length x X : Forall (fun r => length r = length x) X -> length (col_max x X) = length x.
Proof.
  intros H. revert x H. induction X as [|r X IH]; intros x H; simpl; auto.
  inversion H as [|? ? Hr HF]; subst.
  assert (HL : length (map2 qmax x r) = length x) by (apply map2_length; congruence).
  rewrite IH; [exact HL|]. eapply Forall_impl; [|exact HF]. simpl; intros; congruence.
Qed.
Lemma Forall2_Qle_refl l : Forall2 Qle l l.
Proof. induction l; constructor; auto. lra. Qed.
Lemma Forall2_Qle_trans a b c : Forall2 Qle a b -> Forall2 Qle b c -> Forall2 Qle a c.
Proof.
  intros H; revert c; induction H as [|x y a b Hxy H IH]; intros c Hc; inversion Hc; subst; constructor; [lra|auto].
Qed.
Lemma map2_qmin_le a b : length a = length b -> Forall2 Qle (map2 qmin a b) a /\ Forall2 Qle (map2 qmin a b) b.
Proof.
  revert b; induction a as [|x a IH]; intros [|y b] H; simpl in *; try lia; [split; constructor|].
  destruct (IH b) as [H1 H2]; [lia|]. split; constructor; auto; qcases.
Qed.
Lemma map2_qmax_ge a b : length a = length b -> Forall2 Qle a (map2 qmax a b) /\ Forall2 Qle b (map2 qmax a b).
Proof.
  revert b; induction a as [|x a IH]; intros [|y b] H; simpl in *; try lia; [split; constructor|].
  destruct (IH b) as [H1 H2]; [lia|]. split; constructor; auto; qcases.
Qed.
Lemma col_min_le x X r :
  Forall (fun r => length r = length x) X -> In r (x :: X) -> Forall2 Qle (col_min x X) r.
Proof.
  revert x r; induction X as [|r' X IH]; intros x r H Hr; simpl.
  - destruct Hr as [<-|[]]. apply Forall2_Qle_refl.
  - inversion H as [|? ? Hr' HF]; subst.
    assert (HL : length (map2 qmin x r') = length x) by (apply map2_length; congruence).
    assert (HF' : Forall (fun s => length s = length (map2 qmin x r')) X)
      by (eapply Forall_impl; [|exact HF]; simpl; intros; congruence).
    destruct (map2_qmin_le x r') as [H1 H2]; [congruence|].
    destruct Hr as [<-|[<-|Hr]].
    + eapply Forall2_Qle_trans; [|exact H1]. apply IH; simpl; auto.
    + eapply Forall2_Qle_trans; [|exact H2]. apply IH; simpl; auto.
    + apply IH; simpl; auto.
Qed.
Lemma col_max_ge x X r :
  Forall (fun r => length r = length x) X -> In r (x :: X) -> Forall2 Qle r (col_max x X).
Proof.
  revert x r; induction X as [|r' X IH]; intros x r H Hr; simpl.
  - destruct Hr as [<-|[]]. apply Forall2_Qle_refl.
  - inversion H as [|? ? Hr' HF]; subst.
    assert (HL : length (map2 qmax x r') = length x) by (apply map2_length; congruence).
    assert (HF' : Forall (fun s => length s = length (map2 qmax x r')) X)
      by (eapply Forall_impl; [|exact HF]; simpl; intros; congruence).
    destruct (map2_qmax_ge x r') as [H1 H2]; [congruence|].
    destruct Hr as [<-|[<-|Hr]].
    + eapply Forall2_Qle_trans; [exact H1|]. apply IH; simpl; auto.
    + eapply Forall2_Qle_trans; [exact H2|]. apply IH; simpl; auto.
    + apply IH; simpl; auto.
Qed.
Lemma map2_qmin_glb c a b : Forall2 Qle c a -> Forall2 Qle c b -> Forall2 Qle c (map2 qmin a b).
Proof.
  intros H; revert b; induction H as [|x y c a Hxy H IH]; intros b Hb; inversion Hb; subst; simpl; constructor; auto.
  qcases.
Qed.
Lemma map2_qmax_lub c a b : Forall2 Qle a c -> Forall2 Qle b c -> Forall2 Qle (map2 qmax a b) c.
Proof.
  intros H; revert b; induction H as [|x y a c Hxy H IH]; intros b Hb; inversion Hb; subst; simpl; constructor; auto.
  qcases.
Qed.
Lemma col_min_glb c x X : (forall r, In r (x :: X) -> Forall2 Qle c r) -> Forall2 Qle c (col_min x X).
Proof.
  revert x; induction X as [|r X IH]; intros x H; simpl; [apply H; simpl; auto|].
  apply IH. intros s [<-|Hs]; [|apply H; simpl; auto]. apply map2_qmin_glb; apply H; simpl; auto.
Qed.
Lemma col_max_lub c x X : (forall r, In r (x :: X) -> Forall2 Qle r c) -> Forall2 Qle (col_max x X) c.
Proof.
  revert x; induction X as [|r X IH]; intros x H; simpl; [apply H; simpl; auto|].
  apply IH. intros s [<-|Hs]; [|apply H; simpl; auto]. apply map2_qmax_lub; apply H; simpl; auto.
Qed.
Lemma in_space_combine a b x :
  length a = length b -> (in_space (combine a b) x <-> Forall2 Qle a x /\ Forall2 Qle x b).
Proof.
  unfold in_space. revert b x; induction a as [|p a IH]; intros [|q b] x HL; simpl in *; try lia.
  - split; [intros H; inversion H; split; constructor|intros [H _]; inversion H; constructor].
  - split.
    + intros H; inversion H as [|? xi ? x' Hh Ht]; subst. apply IH in Ht; [|lia]. simpl in Hh.
      split; constructor; tauto.
    + intros [H1 H2]; inversion H1; subst; inversion H2; subst. constructor; [simpl; tauto|].
      apply IH; [lia|tauto].
Qed.
Lemma estimate_bounds_correct X x0 X0 :
  X = x0 :: X0 -> Forall (fun r => length r = length x0) X0 ->
  exists bs, estimate_bounds X = Ok bs /\ length bs = length x0 /\ proper_space bs /\
    (forall r, In r X -> in_space bs r) /\
    (forall space, (forall r, In r X -> in_space space r) ->
       Forall2 (fun lh' lh => fst lh' <= fst lh /\ snd lh <= snd lh') space bs).
Proof.
  intros -> HF. simpl. eexists; split; [reflexivity|].
  pose proof (col_min_length _ _ HF) as L1. pose proof (col_max_length _ _ HF) as L2.
  assert (HL : length (col_min x0 X0) = length (col_max x0 X0)) by congruence.
  assert (HIN : forall r, In r (x0 :: X0) -> in_space (combine (col_min x0 X0) (col_max x0 X0)) r).
  { intros r Hr. apply in_space_combine; [exact HL|]. split; [apply col_min_le|apply col_max_ge]; auto. }
  split; [|split].
  - rewrite combine_length. lia.
  - specialize (HIN x0 (or_introl eq_refl)). unfold proper_space, in_space in *.
    clear -HIN. induction HIN; constructor; auto; lra.
  - split; [exact HIN|]. intros space HS.
    assert (HLs : length space = length x0).
    { specialize (HS x0 (or_introl eq_refl)). unfold in_space in HS. apply Forall2_nth in HS. tauto. }
    assert (H1 : Forall2 Qle (map fst space) (col_min x0 X0)).
    { apply col_min_glb. intros r Hr. specialize (HS r Hr). unfold in_space in HS.
      clear - HS. induction HS; simpl; constructor; tauto. }
    assert (H2 : Forall2 Qle (col_max x0 X0) (map snd space)).
    { apply col_max_lub. intros r Hr. specialize (HS r Hr). unfold in_space in HS.
      clear - HS. induction HS; simpl; constructor; tauto. }
    clear - H1 H2. revert H1 H2. generalize (col_min x0 X0) (col_max x0 X0).
    induction space as [|lh space IH]; intros a b H1 H2; simpl in *; inversion H1; subst; inversion H2; subst;
      simpl; constructor; [simpl; tauto|auto].
Qed.

(* ----- initialisation ----- *)
Lemma Qabs_halfnorm s q : 0 <= s -> 0 <= halfnorm_of s q.
Proof. intros H. unfold halfnorm_of. apply Qmult_le_0_compat; [exact H|apply Qabs_nonneg]. Qed.
Lemma half_nonneg s : 0 <= s -> 0 <= s / 2.
Proof. intros. halves s. lra. Qed.
Lemma check_scale_ok s : check_scale s = Ok tt <-> 0 <= s.
Proof. unfold check_scale. destruct (qlt_spec s 0); split; intros; try congruence; try lra; auto. Qed.

Lemma covers_combine_self t (x : row) : (t = OrderedBound \/ t = UnorderedBound) -> covers (mkMatching t (combine x x)) x.
Proof.
  unfold covers; simpl. intros H. induction x as [|a x IH]; simpl; constructor; auto.
  destruct H as [-> | ->]; simpl; [lra|]. rewrite <- qmin_Qmin, <- qmax_Qmax. qcases.
Qed.
Lemma init_mean_covers t x g :
  exists m, init_rule MeanInit t x g = (Ok m, g) /\ mt m = t /\ length (bnd m) = length x /\ covers m x.
Proof.
  unfold init_rule, init_bounds. destruct t; simpl; eexists; repeat split; simpl.
  1,3: rewrite combine_length; lia.
  1,2: apply covers_combine_self; auto.
  1,3: apply map_length.
  all: unfold covers; simpl; induction x as [|a x IH]; simpl; constructor; simpl; auto; lra.
Qed.

Lemma init_halfnorm_covers s t x g :
  0 <= s -> t = OrderedBound \/ t = UnorderedBound ->
  exists m g', init_rule (HalfnormInit s) t x g = (Ok m, g') /\ mt m = t /\ length (bnd m) = length x /\
    covers m x /\ Forall2 (fun b xi => fst b <= xi <= snd b) (bnd m) x.
Proof.
  intros Hs Ht. unfold init_rule, init_bounds.
  pose proof (draws_length (length x) g) as L1.
  destruct (draws (length x) g) as [q0 g1] eqn:E1; simpl in L1.
  pose proof (draws_length (length x) g1) as L2.
  destruct (draws (length x) g1) as [q1 g2] eqn:E2; simpl in L2.
  assert (Hc : check_scale s = Ok tt) by (apply check_scale_ok; exact Hs).
  set (bs := combine (map2 (fun m q => m - halfnorm_of s q) x q0) (map2 (fun m q => m + halfnorm_of s q) x q1)).
  exists (mkMatching t bs), g2.
  assert (HB : Forall2 (fun b xi => fst b <= xi <= snd b) bs x).
  { unfold bs. clear - Hs L1 L2. revert q0 q1 L1 L2.
    induction x as [|a x IH]; intros [|u0 q0] [|u1 q1] L1 L2; simpl in *; try lia; constructor; [|apply IH; lia].
    simpl. pose proof (Qabs_halfnorm s u0 Hs). pose proof (Qabs_halfnorm s u1 Hs). lra. }
  assert (HL : length bs = length x).
  { apply Forall2_nth in HB. tauto. }
  split.
  { destruct Ht as [-> | ->]; rewrite Hc; reflexivity. }
  repeat split; auto.
  unfold covers; simpl. eapply Forall2_impl; [|exact HB]. intros [p q] xi; simpl.
  destruct Ht as [-> | ->]; simpl; [auto|]. rewrite <- qmin_Qmin, <- qmax_Qmax. intros; qcases.
Qed.

Lemma sort_row_proper b : fst (sort_row b) <= snd (sort_row b).
Proof. destruct b; unfold sort_row; simpl. qcases. Qed.
Lemma map_sort_row_proper bs : proper (mkMatching OrderedBound (map sort_row bs)).
Proof.
  unfold proper; simpl. induction bs as [|b bs IH]; simpl; constructor; auto.
  pose proof (sort_row_proper b) as H. destruct (sort_row b); exact H.
Qed.
Lemma init_ordered_proper i x g m g' :
  init_rule i OrderedBound x g = (Ok m, g') -> mt m = OrderedBound /\ length (bnd m) = length x /\ proper m.
Proof.
  destruct i as [|[s|s0 s1]|s]; unfold init_rule, init_bounds; simpl.
  - intros H; inversion H; subst. simpl. repeat split; [rewrite combine_length; lia|].
    unfold proper; simpl. clear. induction x; simpl; constructor; auto; simpl; lra.
  - destruct (check_scale s); [|discriminate].
    pose proof (draws_length (length x) g) as L1. destruct (draws (length x) g) as [q0 g1]; simpl in L1.
    pose proof (draws_length (length x) g1) as L2. destruct (draws (length x) g1) as [q1 g2]; simpl in L2.
    intros H; inversion H; subst. repeat split; [|apply map_sort_row_proper].
    simpl. rewrite map_length, combine_length, !map2_length; lia.
  - discriminate.
  - destruct (check_scale s) eqn:Ec; [|discriminate].
    assert (Hs : 0 <= s) by (apply check_scale_ok; destruct a; exact Ec).
    pose proof (draws_length (length x) g) as L1. destruct (draws (length x) g) as [q0 g1]; simpl in L1.
    pose proof (draws_length (length x) g1) as L2. destruct (draws (length x) g1) as [q1 g2]; simpl in L2.
    intros H; inversion H; subst. repeat split; simpl.
    + rewrite combine_length, !map2_length; lia.
    + unfold proper; simpl. clear - Hs L1 L2. revert q0 q1 L1 L2.
      induction x as [|a x IH]; intros [|u0 q0] [|u1 q1] L1 L2; simpl in *; try lia; constructor; [|apply IH; lia].
      simpl. pose proof (Qabs_halfnorm s u0 Hs). pose proof (Qabs_halfnorm s u1 Hs). lra.
Qed.

(* fresh rule after the default constraint *)
Lemma fresh_ordered i x g m g' mr space :
  i = MeanInit \/ (exists s, i = HalfnormInit s /\ 0 <= s) ->
  init_rule i OrderedBound x g = (Ok m, g') -> proper_space space -> in_space space x ->
  covers (constrain (CombinedConstraint mr space) m) x.
Proof.
  intros Hi HI HP HS.
  assert (HL : length space = length x) by (apply Forall2_nth in HS; tauto).
  destruct (init_ordered_proper _ _ _ _ _ HI) as (E & HLm & _).
  apply (combined_ordered m mr space); auto; [congruence|].
  destruct Hi as [-> | (s & -> & Hs)].
  - destruct (init_mean_covers OrderedBound x g) as (m0 & H0 & _ & _ & Hc). congruence.
  - destruct (init_halfnorm_covers s OrderedBound x g Hs (or_introl eq_refl)) as (m0 & g0 & H0 & _ & _ & Hc & _). congruence.
Qed.
Lemma fresh_center x g mr space :
  Forall (fun xi => -(1) <= xi <= 1) x -> length space = length x ->
  exists m, init_rule MeanInit CenterSpread x g = (Ok m, g) /\
    covers (constrain (CombinedConstraint mr space) m) x.
Proof.
  intros HX HL. destruct (init_mean_covers CenterSpread x g) as (m & H0 & E & HLm & Hc).
  exists m; split; auto. simpl.
  apply clip_center_keeps; auto.
  - rewrite min_range_mt; exact E.
  - rewrite min_range_length; congruence.
  - apply min_range_center_keeps; assumption.
Qed.
Lemma positions_from_In {A} (p : A -> bool) k l j :
  In j (positions_from p k l) <-> exists a, (k <= j)%nat /\ nth_error l (j - k) = Some a /\ p a = true.
Proof.
  revert k; induction l as [|a l IH]; intros k; simpl.
  - split; [tauto|]. intros (b & _ & H & _). destruct (j - k)%nat; discriminate.
  - assert (HS : In j (positions_from p (S k) l) <->
       exists b, (k <= j)%nat /\ nth_error (a :: l) (j - k) = Some b /\ p b = true /\ j <> k).
    { rewrite IH. split.
      - intros (b & H1 & H2 & H3). exists b. repeat split; auto; try lia.
        replace (j - k)%nat with (S (j - S k)) by lia. exact H2.
      - intros (b & H1 & H2 & H3 & H4). exists b. repeat split; auto; try lia.
        replace (j - k)%nat with (S (j - S k)) in H2 by lia. exact H2. }
    destruct (p a) eqn:E; simpl; rewrite HS; split.
    + intros [<-|(b & H1 & H2 & H3 & _)]; [|eauto]. exists a. rewrite Nat.sub_diag. auto.
    + intros (b & H1 & H2 & H3). destruct (Nat.eq_dec j k) as [->|]; [auto|right; eauto 8].
    + intros (b & H1 & H2 & H3 & _); eauto.
    + intros (b & H1 & H2 & H3). destruct (Nat.eq_dec j k) as [->|]; [|eauto 8].
      rewrite Nat.sub_diag in H2. simpl in H2. congruence.
Qed.
Lemma mem_In i l : mem i l = true <-> In i l.
Proof.
  unfold mem. rewrite existsb_exists. split.
  - intros (x & H1 & H2). apply Nat.eqb_eq in H2. congruence.
  - intros H. exists i. rewrite Nat.eqb_refl. auto.
Qed.
Lemma min_range_unordered_point mr x :
  0 < mr -> min_range_unordered mr (combine x x) =
            map (fun xi => (xi + - (mr / 2), xi + mr / 2)) x.
Proof.
  intros H. unfold min_range_unordered.
  assert (E : qlt 0 mr = true) by (apply qlt_iff; exact H). rewrite E.
  set (inv := filter _ _).
  assert (HI : inv = map (fun b => snd b - fst b) (combine x x)).
  { unfold inv. clear inv. induction x as [|a x IH]; simpl; auto.
    assert (E1 : qlt (a - a) mr = true) by (apply qlt_iff; lra).
    assert (E2 : qlt (- (a - a)) mr = true) by (apply qlt_iff; lra).
    rewrite E1, E2. simpl. rewrite IH. reflexivity. }
  assert (HZ : Forall (fun d => d == 0) inv).
  { rewrite HI. clear. induction x; simpl; constructor; auto; simpl; lra. }
  assert (HL : length inv = length x).
  { rewrite HI, map_length, combine_length. lia. }
  assert (Hjl : argwhere (fun d => qlt (- d) d) inv = []).
  { unfold argwhere. generalize 0%nat. clear - HZ. induction HZ as [|d l Hd HZ IH]; intros k; simpl; auto.
    assert (E : qlt (- d) d = false) by (apply qlt_false; lra). rewrite E. auto. }
  rewrite Hjl. cbn iota.
  assert (Hid : add_rows [] (mr / 2) (- (mr / 2)) (combine x x) = combine x x).
  { unfold add_rows. apply nth_error_ext. intros i. rewrite mapi_nth. destruct (nth_error _ i); reflexivity. }
  rewrite Hid.
  assert (Hjr : forall i, (i < length x)%nat ->
     mem i (match argwhere (fun d => qle d (- d)) inv with [] => [] | _ => 0%nat :: argwhere (fun d => qle d (- d)) inv end) = true).
  { intros i Hi. apply mem_In.
    assert (HIn : In i (argwhere (fun d => qle d (- d)) inv)).
    { apply positions_from_In. destruct (nth_error inv i) as [d|] eqn:Ed.
      - exists d. rewrite Nat.sub_0_r. repeat split; auto; [lia|].
        rewrite Forall_forall in HZ. apply nth_error_In in Ed. specialize (HZ _ Ed). apply qle_iff; lra.
      - apply nth_error_None in Ed. lia. }
    destruct (argwhere (fun d => qle d (- d)) inv); [contradiction HIn|right; exact HIn]. }
  unfold add_rows. apply nth_error_ext. intros i. rewrite mapi_nth, nth_error_map.
  destruct (nth_error x i) as [xi|] eqn:Ei; simpl.
  - assert (Hc : nth_error (combine x x) i = Some (xi, xi)).
    { clear - Ei. revert i Ei; induction x as [|a x IH]; intros [|i] H; simpl in *; try congruence; auto. }
    rewrite Hc. simpl. rewrite Hjr; [reflexivity|]. apply nth_error_Some. congruence.
  - assert (Hc : nth_error (combine x x) i = None).
    { apply nth_error_None. rewrite combine_length. apply nth_error_None in Ei. lia. }
    rewrite Hc. reflexivity.
Qed.
Lemma fresh_unordered_mean x g mr space :
  length space = length x ->
  exists m, init_rule MeanInit UnorderedBound x g = (Ok m, g) /\
    covers (constrain (CombinedConstraint mr space) m) x.
Proof.
  intros HL. eexists; split; [reflexivity|]. simpl.
  set (m := mkMatching UnorderedBound (combine x x)).
  assert (Hc : covers (min_range m mr) x).
  { destruct (Qlt_le_dec 0 mr) as [H|H].
    - unfold covers, min_range; simpl. rewrite min_range_unordered_point by exact H.
      halves mr. clear HL m. induction x as [|a x IH]; simpl; constructor; auto.
      simpl. rewrite <- qmin_Qmin, <- qmax_Qmax. qcases.
    - rewrite min_range_off by exact H. apply covers_combine_self; auto. }
  assert (HLm : length (bnd (min_range m mr)) = length space).
  { rewrite min_range_length. simpl. rewrite combine_length. lia. }
  revert Hc HLm. unfold covers, clip. simpl. generalize (min_range_unordered mr (combine x x)). intros bs.
  clear. intros HC HL. revert space HL.
  induction HC as [|b xi bs x Hb HC IH]; intros [|lh space] HL; simpl in *; try lia; constructor; auto.
Qed.

(* ----- mutation ----- *)
Lemma add_noise_length bs n : length n = length bs -> length (add_noise bs n) = length bs.
Proof. intros. unfold add_noise. apply map2_length. congruence. Qed.
Lemma pair_up_length l n : length l = (2 * n)%nat -> length (pair_up l) = n.
Proof.
  revert l; induction n as [|n IH]; intros l H.
  - destruct l; simpl in *; [auto|lia].
  - destruct l as [|a [|b l]]; simpl in *; try lia. rewrite IH; lia.
Qed.

Ltac draws_step :=
  match goal with
  | H : context [draws ?n ?g] |- _ =>
      let L := fresh "L" in let q := fresh "q" in let g1 := fresh "g" in
      pose proof (draws_length n g) as L; destruct (draws n g) as [q g1]; cbn [fst] in L
  end.

Lemma mutate_shape mu m g m' g' :
  mutate mu m g = (Ok m', g') ->
  mt m' = mt m /\ length (bnd m') = length (bnd m) /\ (mt m = OrderedBound -> proper m').
Proof.
  destruct m as [t bs]. unfold mutate, noise_bounds. cbn [mt bnd]. intros H.
  destruct mu as [s|s|s|s|s], t, s; cbn beta iota zeta in H; try discriminate;
    repeat match type of H with context [check_scale ?x] => destruct (check_scale x); cbn beta iota zeta in H; [|discriminate] end;
    repeat draws_step; inversion H; subst; cbn [mt bnd sort_if_ordered];
    (split; [reflexivity|split; [|intros ?; first [apply map_sort_row_proper | congruence]]]);
    rewrite ?map_length, ?add_noise_length; rewrite ?map_length, ?combine_length, ?map2_length; rewrite ?map_length;
    try (rewrite (pair_up_length _ (length bs)); rewrite ?map_length); lia.
Qed.

Lemma add_noise_covers (bs n : bounds) x :
  length n = length bs -> Forall (fun n => fst n <= 0 /\ 0 <= snd n) n ->
  Forall2 (fun b xi => lo OrderedBound b <= xi /\ xi <= hi OrderedBound b) bs x ->
  Forall2 (fun b xi => lo OrderedBound b <= xi /\ xi <= hi OrderedBound b) (map sort_row (add_noise bs n)) x.
Proof.
  intros HL HN HC. revert n HL HN. induction HC as [|[p q] xi bs x Hb HC IH]; intros [|[a b] n] HL HN; simpl in *; try lia; constructor.
  - inversion HN as [|? ? Hn HN']; subst. unfold sort_row; simpl in *. qcases.
  - inversion HN; subst. apply IH; [lia|assumption].
Qed.
Lemma noise_signs (f h : Q -> Q) q0 q1 :
  (forall q, f q <= 0) -> (forall q, 0 <= h q) ->
  Forall (fun n => fst n <= 0 /\ 0 <= snd n) (combine (map f q0) (map h q1)).
Proof.
  intros Hf Hh. revert q1; induction q0 as [|a q0 IH]; intros [|b q1]; simpl; constructor; auto. simpl; auto.
Qed.
Lemma uniform_of_range lo hi q : lo <= hi -> lo <= uniform_of lo hi q <= hi.
Proof. intros H. unfold uniform_of. pose proof (u01_range q) as [H1 H2]. nra. Qed.
Lemma increase_keeps s m g m' g' x mu :
  mt m = OrderedBound -> 0 <= s ->
  mu = MutHalfnormIncrease (Scalar s) \/ mu = MutUniformIncrease (Scalar s) ->
  mutate mu m g = (Ok m', g') -> covers m x -> covers m' x.
Proof.
  destruct m as [t bs]; cbn [mt]. intros -> Hs Hmu H HC. unfold covers in HC; cbn [mt bnd] in HC.
  unfold mutate, noise_bounds in H. cbn [mt bnd] in H.
  pose proof (half_nonneg s Hs) as Hh.
  destruct Hmu as [-> | ->]; cbn beta iota zeta in H.
  - destruct (check_scale s); [|discriminate]. repeat draws_step. inversion H; subst.
    unfold covers; cbn [mt bnd sort_if_ordered]. apply add_noise_covers; auto.
    + rewrite combine_length, !map_length. lia.
    + apply noise_signs; intros q2.
      * pose proof (Qabs_halfnorm (s / 2) q2 Hh). lra.
      * apply Qabs_halfnorm; exact Hh.
  - repeat draws_step. inversion H; subst.
    unfold covers; cbn [mt bnd sort_if_ordered]. apply add_noise_covers; auto.
    + rewrite combine_length, !map_length. lia.
    + apply noise_signs; intros q2; pose proof (uniform_of_range 0 s q2 Hs); lra.
Qed.

(* the ordered increase always succeeds for s >= 0 *)
Lemma increase_succeeds s m g mu :
  mt m = OrderedBound -> 0 <= s ->
  mu = MutHalfnormIncrease (Scalar s) \/ mu = MutUniformIncrease (Scalar s) ->
  exists m' g', mutate mu m g = (Ok m', g').
Proof.
  destruct m as [t bs]; cbn [mt]. intros -> Hs Hmu. unfold mutate, noise_bounds. cbn [mt bnd].
  apply check_scale_ok in Hs.
  destruct Hmu as [-> | ->]; [rewrite Hs|];
    destruct (draws (length bs) g) as [q0 g1]; destruct (draws (length bs) g1) as [q1 g2]; eauto.
Qed.

(* ----- crossover ----- *)
Lemma rule_crossover_spec rate a b g a' b' g' :
  length (bnd a) = length (bnd b) ->
  rule_crossover rate a b g = (Ok (a', b'), g') ->
  mt a' = mt a /\ mt b' = mt b /\ length (bnd a') = length (bnd a) /\ length (bnd b') = length (bnd b) /\
  forall i x y, nth_error (bnd a) i = Some x -> nth_error (bnd b) i = Some y ->
    (nth_error (bnd a') i = Some x /\ nth_error (bnd b') i = Some y) \/
    (nth_error (bnd a') i = Some y /\ nth_error (bnd b') i = Some x).
Proof.
  intros HL. unfold rule_crossover. destruct (random g) as [u g1].
  destruct (qlt u rate).
  - destruct a as [ta ba], b as [tb bb]; simpl in HL; cbn [mt bnd].
    destruct ta; try discriminate. pose proof (draws_length (length ba) g1) as L.
    destruct (draws (length ba) g1) as [qs g2]; simpl in L.
    intros H; inversion H; subst. cbn [mt bnd]. repeat split.
    + rewrite map2_length; rewrite map_length; [|rewrite combine_length]; lia.
    + rewrite map2_length; rewrite map_length; [|rewrite combine_length]; lia.
    + intros i x y Hx Hy.
      assert (Hq : exists q, nth_error qs i = Some q).
      { destruct (nth_error qs i) eqn:E; eauto. apply nth_error_None in E.
        assert (i < length ba)%nat by (apply nth_error_Some; congruence). lia. }
      destruct Hq as [q Hq].
      assert (H1 : nth_error (combine ba bb) i = Some (x, y)).
      { clear - Hx Hy. revert ba bb Hx Hy; induction i; intros [|? ba] [|? bb]; simpl; intros; try congruence; auto. }
      assert (H2 : nth_error (combine bb ba) i = Some (y, x)).
      { clear - Hx Hy. revert ba bb Hx Hy; induction i; intros [|? ba] [|? bb]; simpl; intros; try congruence; auto. }
      erewrite !map2_nth by (eauto; rewrite nth_error_map, Hq; reflexivity). simpl.
      destruct (bool_of q); auto.
  - intros H; inversion H; subst. repeat split; auto.
Qed.
