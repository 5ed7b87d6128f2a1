(* The lemmas of L_RuleGen and L_RuleHeap put together as the properties state them, and counterexamples. *)
From Verif Require Import PyNum PyList PyMon PyRng L_Num L_List L_Rng M_Matching S_Matching L_Matching M_RuleGen L_RuleGen
  M_RuleHeap S_RuleHeap L_RuleHeap.

Lemma fresh_ordered_all i x g mr space :
  i = MeanInit \/ (exists s, i = HalfnormInit s /\ 0 <= s) -> proper_space space -> in_space space x ->
  exists m g', init_rule i OrderedBound x g = (Ok m, g') /\ proper m /\
    covers (constrain (CombinedConstraint mr space) m) x.
Proof.
  intros Hi HP HS.
  assert (HE : exists m g', init_rule i OrderedBound x g = (Ok m, g')).
  { destruct Hi as [-> | (s & -> & Hs)].
    - destruct (init_mean_covers OrderedBound x g) as (m0 & H0 & _); eauto.
    - destruct (init_halfnorm_covers s OrderedBound x g Hs (or_introl eq_refl)) as (m0 & g0 & H0 & _); eauto. }
  destruct HE as (m & g' & HE). exists m, g'. split; [exact HE|]. split.
  - apply init_ordered_proper in HE. tauto.
  - eapply fresh_ordered; eauto.
Qed.
Lemma uniform_in_space space qs :
  proper_space space -> length qs = length space ->
  in_space space (map2 (fun lh q => uniform_of (fst lh) (snd lh) q) space qs).
Proof.
  unfold proper_space, in_space. intros HP; revert qs.
  induction HP as [|lh space Hlh HP IH]; intros [|q qs] HL; simpl in *; try lia; constructor; [|apply IH; lia].
  apply uniform_of_range; exact Hlh.
Qed.
Lemma fresh_random_center i g mr space :
  i = MeanInit \/ (exists s, i = HalfnormInit s /\ 0 <= s) -> proper_space space ->
  exists m g' x, init_rule_nomean i OrderedBound space g = (Ok m, g') /\ in_space space x /\
    covers (constrain (CombinedConstraint mr space) m) x.
Proof.
  intros Hi HP. unfold init_rule_nomean. pose proof (draws_length (length space) g) as L.
  destruct (draws (length space) g) as [qs g1]; simpl in L.
  pose proof (uniform_in_space space qs HP L) as HS.
  destruct (fresh_ordered_all i _ g1 mr space Hi HP HS) as (m & g' & H1 & _ & H3). eauto 8.
Qed.
Definition const_rng (l : list Q) : rng := mkRng (fun i => nth i l 0) 0.
Lemma fresh_minpct_wrong : exists x g mr space m,
  proper_space space /\ in_space space x /\ 0 < mr /\
  init_rule MeanInit MinPercentage x g = (Ok m, g) /\ ~ covers (constrain (CombinedConstraint mr space) m) x.
Proof.
  exists [9#10], (const_rng []), (1#10), [(-(1), 1)], (mkMatching MinPercentage [(9#10, 0)]).
  split; [repeat constructor; vm_compute; discriminate|]. split; [repeat constructor; vm_compute; discriminate|].
  split; [reflexivity|]. split; [reflexivity|].
  intros H. inversion H as [|? ? ? ? [_ H1] ?]; subst. vm_compute in H1. apply H1; reflexivity.
Qed.
Lemma fresh_unordered_halfnorm_wrong : exists s x g mr space m g',
  0 < s /\ proper_space space /\ in_space space x /\ 0 < mr /\
  init_rule (HalfnormInit s) UnorderedBound x g = (Ok m, g') /\
  covers m x /\ ~ covers (constrain (CombinedConstraint mr space) m) x.
Proof.
  exists 1, [0], (const_rng [0; 9#10]), 1, [(-(1), 1)].
  eexists; eexists. split; [reflexivity|]. split; [repeat constructor; vm_compute; discriminate|].
  split; [repeat constructor; vm_compute; discriminate|]. split; [reflexivity|]. split; [vm_compute; reflexivity|].
  split; [constructor; [vm_compute; split; discriminate|constructor]|].
  intros H. inversion H as [|? ? ? ? [H1 _] ?]; subst. vm_compute in H1. apply H1; reflexivity.
Qed.

Lemma halfnorm_keeps_center s m g m' g' :
  mt m = OrderedBound \/ mt m = UnorderedBound -> 0 <= s -> mutate (MutHalfnorm (Scalar s)) m g = (Ok m', g') ->
  covers m' (map (fun b => (fst b + snd b) / 2) (bnd m)).
Proof.
  destruct m as [t bs]; cbn [mt bnd]. intros Ht Hs H. unfold mutate, noise_bounds in H. cbn [mt bnd] in H.
  pose proof (half_nonneg s Hs) as Hh.
  assert (HH : match check_scale s with
      | Ok _ => let '(q0, g1) := draws (length bs) g in
                let '(q1, g2) := draws (length bs) g1 in
                (Ok (mkMatching t (sort_if_ordered t
                  (combine (map2 (fun m q => m - halfnorm_of (s / 2) q) (map (fun b => (fst b + snd b) / 2) bs) q0)
                             (map2 (fun m q => m + halfnorm_of (s / 2) q) (map (fun b => (fst b + snd b) / 2) bs) q1)))), g2)
      | Raise e => (Raise e, g) end = (Ok m', g')).
  { destruct Ht as [-> | ->]; destruct (check_scale s); try discriminate H;
      destruct (draws (length bs) g) as [q0 g1]; destruct (draws (length bs) g1) as [q1 g2]; exact H. }
  clear H. destruct (check_scale s); [|discriminate]. repeat draws_step. inversion HH; subst.
  unfold covers; cbn [mt bnd].
  assert (HB : Forall2 (fun b xi => fst b <= xi <= snd b)
     (combine (map2 (fun m q => m - halfnorm_of (s / 2) q) (map (fun b => (fst b + snd b) / 2) bs) q)
              (map2 (fun m q => m + halfnorm_of (s / 2) q) (map (fun b => (fst b + snd b) / 2) bs) q0))
     (map (fun b => (fst b + snd b) / 2) bs)).
  { clear - L L0 Hh. revert q q0 L L0. induction bs as [|b bs IH]; intros [|u0 q0] [|u1 q1] L1 L2; simpl in *; try lia; constructor; [|apply IH; lia].
    simpl. pose proof (Qabs_halfnorm (s/2) u0 Hh). pose proof (Qabs_halfnorm (s/2) u1 Hh). lra. }
  revert HB. generalize (combine (map2 (fun m q => m - halfnorm_of (s / 2) q) (map (fun b => (fst b + snd b) / 2) bs) q)
              (map2 (fun m q => m + halfnorm_of (s / 2) q) (map (fun b => (fst b + snd b) / 2) bs) q0)).
  generalize (map (fun b : Q * Q => (fst b + snd b) / 2) bs). intros x w HB. clear - HB Ht.
  destruct Ht as [-> | ->]; simpl.
  - induction HB as [|[p q] xi w x Hb HB IH]; simpl; constructor; auto. unfold sort_row; simpl in *. qcases.
  - eapply Forall2_impl; [|exact HB]. intros [p q] xi; simpl. rewrite <- qmin_Qmin, <- qmax_Qmax. intros; qcases.
Qed.

Lemma increase_all s m g mu :
  mt m = OrderedBound -> 0 <= s ->
  mu = MutHalfnormIncrease (Scalar s) \/ mu = MutUniformIncrease (Scalar s) ->
  exists m' g', mutate mu m g = (Ok m', g') /\ forall x, covers m x -> covers m' x.
Proof.
  intros E Hs Hmu. destruct (increase_succeeds s m g mu E Hs Hmu) as (m' & g' & H).
  exists m', g'. split; auto. intros x. eapply increase_keeps; eauto.
Qed.
Lemma increase_center_wrong : exists s0 s1 m g m' g' x,
  mt m = CenterSpread /\ 0 < s0 /\ 0 < s1 /\
  mutate (MutUniformIncrease (Pair s0 s1)) m g = (Ok m', g') /\ covers m x /\ ~ covers m' x.
Proof.
  exists 1, 1, (mkMatching CenterSpread [(0, 1)]), (const_rng [0; 0]). eexists; eexists; exists [-(1)].
  split; [reflexivity|]. split; [reflexivity|]. split; [reflexivity|]. split; [vm_compute; reflexivity|].
  split; [constructor; [vm_compute; split; discriminate|constructor]|].
  intros H. inversion H as [|? ? ? ? [H1 _] ?]; subst. vm_compute in H1. apply H1; reflexivity.
Qed.
Lemma increase_minpct_wrong : exists s0 s1 m g m' g' x,
  mt m = MinPercentage /\ 0 < s0 /\ 0 < s1 /\
  mutate (MutUniformIncrease (Pair s0 s1)) m g = (Ok m', g') /\ covers m x /\ ~ covers m' x.
Proof.
  exists 1, 1, (mkMatching MinPercentage [(1#2, 0)]), (const_rng [1#2; 0]). eexists; eexists; exists [1#2].
  split; [reflexivity|]. split; [reflexivity|]. split; [reflexivity|]. split; [vm_compute; reflexivity|].
  split; [constructor; [vm_compute; split; discriminate|constructor]|].
  intros H. inversion H as [|? ? ? ? [_ H1] ?]; subst. vm_compute in H1. apply H1; reflexivity.
Qed.
Lemma crossover_other_raises rate a b g :
  mt a <> OrderedBound -> fst (random g) < rate -> fst (rule_crossover rate a b g) = Raise TypeError.
Proof.
  intros Ha H. unfold rule_crossover. destruct (random g) as [u g1]; simpl in H.
  assert (E : qlt u rate = true) by (apply qlt_iff; exact H). rewrite E.
  destruct (mt a); [congruence|reflexivity..].
Qed.
