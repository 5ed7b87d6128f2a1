(* The lemmas of L_Matching put together as the properties state them, and counterexamples. *)
From Coq Require Import Qminmax.
From Verif Require Import PyNum PyList PyMon L_Num L_List M_Matching S_Matching L_Matching.

Lemma clip_ordered_all m space :
  mt m = OrderedBound -> length space = length (bnd m) -> proper_space space ->
  let m' := constrain (Clip space) m in
  Forall2 (fun lh b => (fst lh <= fst b <= snd lh) /\ (fst lh <= snd b <= snd lh)) space (bnd m') /\
  inside space m' /\
  (proper m -> proper m') /\
  (forall x, in_space space x -> covers m x -> covers m' x) /\
  (proper m -> inside space m -> same_bounds (bnd m') (bnd m)) /\
  (Forall2 (fun lh b => fst b <= snd lh /\ fst lh <= snd b) space (bnd m) ->
   forall x, in_space space x -> covers m' x -> covers m x).
Proof.
  intros E HL HP; simpl. split; [apply clip_ordered_limits; auto|]. split; [apply clip_ordered_inside; auto|].
  split; [apply clip_ordered_proper; auto|]. split; [intros x; apply clip_ordered_keeps; auto|].
  split; [apply clip_ordered_id; auto|]. intros H x; apply clip_ordered_gains_none; auto.
Qed.
Lemma min_range_ordered_all m mr :
  mt m = OrderedBound -> proper m ->
  let m' := constrain (MinRange mr) m in
  (0 < mr -> wide mr m') /\ proper m' /\
  (forall x, covers m x -> covers m' x) /\
  (forall i b, nth_error (bnd m) i = Some b -> mr <= hi OrderedBound b - lo OrderedBound b ->
     nth_error (bnd m') i = Some b) /\
  (mr <= 0 -> m' = m).
Proof.
  intros E HP; simpl. split; [intros; apply min_range_ordered_wide; auto|].
  split; [apply min_range_ordered_proper; auto|]. split; [intros; apply min_range_ordered_keeps; auto|].
  split; [intros; eapply min_range_ordered_untouched; eauto|]. apply min_range_off.
Qed.
Lemma min_range_center_all m mr :
  mt m = CenterSpread -> Forall (fun b => 0 <= snd b) (bnd m) ->
  let m' := constrain (MinRange mr) m in
  (0 < mr -> wide mr m') /\ (forall x, covers m x -> covers m' x) /\ (mr <= 0 -> m' = m).
Proof.
  intros E HP; simpl. split.
  - intros H. unfold wide. rewrite min_range_mt, E. apply min_range_center_wide; auto.
  - split; [intros; apply min_range_center_keeps; auto|apply min_range_off].
Qed.
Lemma clip_center_all m space :
  mt m = CenterSpread -> length space = length (bnd m) ->
  let m' := constrain (Clip space) m in
  Forall (fun b => -(1) <= fst b <= 1 /\ 0 <= snd b <= 2) (bnd m') /\
  forall x, Forall (fun xi => -(1) <= xi <= 1) x -> covers m x -> covers m' x.
Proof.
  intros E HL; simpl. split.
  - rewrite E. clear E. revert space HL. generalize (bnd m).
    induction b as [|p bs IH]; intros [|lh space] HL; simpl in *; try lia; constructor; auto.
    simpl. split; apply qclip_range; lra.
  - intros x HX. apply clip_center_keeps; auto.
Qed.
Lemma clip_minpct_all m space :
  mt m = MinPercentage -> length space = length (bnd m) ->
  let m' := constrain (Clip space) m in
  Forall (fun b => -(1) <= lo MinPercentage b /\ lo MinPercentage b <= hi MinPercentage b /\ hi MinPercentage b <= 1)
         (bnd m') /\
  forall x, Forall (fun xi => -(1) <= xi <= 1) x -> covers m x -> covers m' x.
Proof.
  intros E HL; simpl. split; [apply (clip_minpct_inside m space E HL)|].
  intros x HX. apply clip_minpct_keeps; auto.
Qed.

(* counterexamples *)
Ltac q_refute := let H := fresh in intro H; vm_compute in H; try discriminate H; try (now apply H); try (now destruct H).
Definition half_minpct := mkMatching MinPercentage [(0, 1#2)].
Lemma volume_minpct_wrong : exists m,
  mt m = MinPercentage /\ proper m /\ Forall (fun b => 0 <= fst b <= 1 /\ 0 <= snd b <= 1) (bnd m) /\
  ~ volume m == product (lengths m).
Proof.
  exists half_minpct. split; [reflexivity|]. split; [repeat constructor; vm_compute; discriminate|].
  split; [repeat constructor; vm_compute; discriminate|]. vm_compute. discriminate.
Qed.
Lemma clip_unordered_wrong : exists m space,
  mt m = UnorderedBound /\ length space = length (bnd m) /\ proper_space space /\
  ~ inside space (constrain (Clip space) m).
Proof.
  exists (mkMatching UnorderedBound [(0, 3)]), [(0, 1)]. split; [reflexivity|]. split; [reflexivity|].
  split; [repeat constructor; vm_compute; discriminate|].
  intros H. inversion H as [|? ? ? ? [_ H1] ?]; subst. vm_compute in H1. apply H1; reflexivity.
Qed.
Lemma clip_center_wrong : exists m space,
  mt m = CenterSpread /\ length space = length (bnd m) /\ proper_space space /\
  ~ inside space (constrain (Clip space) m).
Proof.
  exists (mkMatching CenterSpread [(1, 2)]), [(-(1), 1)]. split; [reflexivity|]. split; [reflexivity|].
  split; [repeat constructor; vm_compute; discriminate|].
  intros H. inversion H as [|? ? ? ? [_ H1] ?]; subst. vm_compute in H1. apply H1; reflexivity.
Qed.
Lemma min_range_unordered_loses : exists m mr x,
  mt m = UnorderedBound /\ 0 < mr /\ covers m x /\ ~ covers (constrain (MinRange mr) m) x.
Proof.
  exists (mkMatching UnorderedBound [(0, 9#10)]), 1, [0]. split; [reflexivity|]. split; [reflexivity|].
  split; [constructor; [vm_compute; split; discriminate|constructor]|].
  intros H. inversion H as [|? ? ? ? [H1 _] ?]; subst. vm_compute in H1. apply H1; reflexivity.
Qed.
Lemma min_range_unordered_narrow : exists m mr,
  mt m = UnorderedBound /\ 0 < mr /\ ~ wide mr (constrain (MinRange mr) m).
Proof.
  exists (mkMatching UnorderedBound [(0, 5); (0, 0)]), 1. split; [reflexivity|]. split; [reflexivity|].
  intros H. inversion H as [|? ? _ H1]; subst. inversion H1 as [|? ? H2 _]; subst. vm_compute in H2. apply H2; reflexivity.
Qed.
Lemma min_range_minpct_wrong : exists m mr x,
  mt m = MinPercentage /\ proper m /\ 0 < mr /\ covers m x /\
  ~ covers (constrain (MinRange mr) m) x /\ ~ wide mr (constrain (MinRange mr) m).
Proof.
  exists (mkMatching MinPercentage [(9#10, 0)]), (1#10), [9#10]. split; [reflexivity|].
  split; [repeat constructor; vm_compute; discriminate|]. split; [reflexivity|].
  split; [constructor; [vm_compute; split; discriminate|constructor]|]. split.
  - intros H. inversion H as [|? ? ? ? [_ H1] ?]; subst. vm_compute in H1. apply H1; reflexivity.
  - intros H. inversion H as [|? ? H1 ?]; subst. vm_compute in H1. apply H1; reflexivity.
Qed.
Lemma combined_edge_narrow : exists m mr space,
  mt m = OrderedBound /\ proper m /\ inside space m /\ 0 < mr /\
  Forall (fun lh => mr <= snd lh - fst lh) space /\
  ~ wide mr (constrain (CombinedConstraint mr space) m).
Proof.
  exists (mkMatching OrderedBound [(0, 0)]), 1, [(0, 2)]. split; [reflexivity|].
  split; [repeat constructor; vm_compute; discriminate|]. split; [repeat constructor; vm_compute; discriminate|].
  split; [reflexivity|]. split; [repeat constructor; vm_compute; discriminate|].
  intros H. inversion H as [|? ? H1 _]; subst. vm_compute in H1. apply H1; reflexivity.
Qed.
