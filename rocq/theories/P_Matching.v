(* Properties C01-C05: conditions of rules. *)
From Coq Require Import Qminmax.
From Verif Require Import PyNum PyList PyMon M_Matching S_Matching L_Matching L_MatchingProps.

(* ----- C01: a rule matches a sample exactly when the sample is in the closed box of the condition ----- *)
Theorem C01_matching_decides_membership : forall m X,
  Forall (fun x => length x = length (bnd m)) X ->
  exists flags, match_call m X = Ok flags /\ Forall2 (fun x f => f = true <-> covers m x) X flags.
Proof. exact matching_decides_membership. Qed.
Print Assumptions C01_matching_decides_membership.
Example C01_satisfiable :
  exists m X, X <> [] /\ Forall (fun x => length x = length (bnd m)) X /\ match_call m X = Ok [true; false].
Proof.
  exists (mkMatching UnorderedBound [(1, 0); (0, 1)]), [[1#2; 1]; [1#2; 2]].
  split; [discriminate|]. split; [repeat constructor|vm_compute; reflexivity].
Qed.

(* the answer for a sample does not depend on the other samples of the batch *)
Theorem C01_batch_independent : forall m X1 X2,
  match_call m (X1 ++ X2) = (let? f1 := match_call m X1 in let? f2 := match_call m X2 in Ok (f1 ++ f2)).
Proof. exact match_call_app. Qed.
Print Assumptions C01_batch_independent.

(* a sample of another dimension is an error, unless numpy broadcasts *)
Theorem C01_dimension_error : forall m x X,
  length x <> length (bnd m) -> length x <> 1%nat -> length (bnd m) <> 1%nat ->
  match_call m (x :: X) = Raise ValueError.
Proof. exact match_call_dim_error. Qed.
Print Assumptions C01_dimension_error.
Example C01_dimension_error_satisfiable :
  match_call (mkMatching OrderedBound [(0, 1); (0, 1)]) [[0; 0; 0]] = Raise ValueError.
Proof. reflexivity. Qed.

(* ----- C02: the reported volume is the volume of the matched region ----- *)
Theorem C02_volume_ordered : forall m, mt m = OrderedBound -> volume m == product (lengths m).
Proof. exact volume_ordered. Qed.
Print Assumptions C02_volume_ordered.
Theorem C02_volume_unordered : forall m, mt m = UnorderedBound -> volume m == product (lengths m).
Proof. exact volume_unordered. Qed.
Print Assumptions C02_volume_unordered.
(* centre-spread: of the part of each interval inside [-1,1] *)
Theorem C02_volume_center : forall m,
  mt m = CenterSpread -> Forall (fun b => 0 <= snd b) (bnd m) ->
  volume m == product (map (fun b => Qmax 0 (Qmin (hi CenterSpread b) 1 - Qmax (lo CenterSpread b) (-(1)))) (bnd m)).
Proof. exact volume_center. Qed.
Print Assumptions C02_volume_center.
Example C02_satisfiable :
  volume (mkMatching UnorderedBound [(3, 1); (0, 5)]) == 10 /\ volume (mkMatching CenterSpread [(1#2, 1)]) == 3#2.
Proof. split; reflexivity. Qed.
(* min-percentage reports another number than the volume of what it matches *)
Theorem C02_volume_minpct_refuted : exists m,
  mt m = MinPercentage /\ proper m /\ Forall (fun b => 0 <= fst b <= 1 /\ 0 <= snd b <= 1) (bnd m) /\
  ~ volume m == product (lengths m).
Proof. exact volume_minpct_wrong. Qed.
Print Assumptions C02_volume_minpct_refuted.

(* ----- C03: clipping ----- *)
Theorem C03_clip_ordered_partial : forall m space,
  mt m = OrderedBound -> length space = length (bnd m) -> proper_space space ->
  let m' := constrain (Clip space) m in
  (* every limit is inside *)
  Forall2 (fun lh b => (fst lh <= fst b <= snd lh) /\ (fst lh <= snd b <= snd lh)) space (bnd m') /\
  inside space m' /\
  (proper m -> proper m') /\
  (* no in-space sample is lost *)
  (forall x, in_space space x -> covers m x -> covers m' x) /\
  (* a rule already inside is unchanged *)
  (proper m -> inside space m -> same_bounds (bnd m') (bnd m)) /\
  (* a rule that meets the space gains no in-space sample *)
  (Forall2 (fun lh b => fst b <= snd lh /\ fst lh <= snd b) space (bnd m) ->
   forall x, in_space space x -> covers m' x -> covers m x).
Proof. exact clip_ordered_all. Qed.
Print Assumptions C03_clip_ordered_partial.
Example C03_satisfiable : exists m space,
  mt m = OrderedBound /\ length space = length (bnd m) /\ proper_space space /\ proper m /\
  ~ inside space m /\ exists x, in_space space x /\ covers m x.
Proof.
  exists (mkMatching OrderedBound [(-(1), 1#2); (0, 3)]), [(0, 1); (0, 1)].
  split; [reflexivity|]. split; [reflexivity|]. split; [repeat constructor; vm_compute; discriminate|].
  split; [repeat constructor; vm_compute; discriminate|]. split.
  - intros H. inversion H as [|? ? ? ? [H1 _] ?]; subst. vm_compute in H1. apply H1; reflexivity.
  - exists [1#4; 1#2]. split; repeat constructor; vm_compute; discriminate.
Qed.
(* centre-spread and min-percentage clip to [-1,1] whatever the bounds are, and lose no sample inside [-1,1] *)
Theorem C03_clip_center_partial : forall m space,
  mt m = CenterSpread -> length space = length (bnd m) ->
  let m' := constrain (Clip space) m in
  Forall (fun b => -(1) <= fst b <= 1 /\ 0 <= snd b <= 2) (bnd m') /\
  forall x, Forall (fun xi => -(1) <= xi <= 1) x -> covers m x -> covers m' x.
Proof. exact clip_center_all. Qed.
Print Assumptions C03_clip_center_partial.
Theorem C03_clip_minpct_partial : forall m space,
  mt m = MinPercentage -> length space = length (bnd m) ->
  let m' := constrain (Clip space) m in
  Forall (fun b => -(1) <= lo MinPercentage b /\ lo MinPercentage b <= hi MinPercentage b /\ hi MinPercentage b <= 1)
         (bnd m') /\
  forall x, Forall (fun xi => -(1) <= xi <= 1) x -> covers m x -> covers m' x.
Proof. exact clip_minpct_all. Qed.
Print Assumptions C03_clip_minpct_partial.
Example C03_center_satisfiable :
  covers (constrain (Clip [(0, 1)]) (mkMatching CenterSpread [(2, 3)])) [1] /\
  covers (constrain (Clip [(0, 1)]) (mkMatching MinPercentage [(-(2), 2)])) [1].
Proof. split; repeat constructor; vm_compute; discriminate. Qed.
(* unordered bounds are not clipped at all; a clipped centre-spread rule can stick out *)
Theorem C03_clip_unordered_refuted : exists m space,
  mt m = UnorderedBound /\ length space = length (bnd m) /\ proper_space space /\
  ~ inside space (constrain (Clip space) m).
Proof. exact clip_unordered_wrong. Qed.
Print Assumptions C03_clip_unordered_refuted.
Theorem C03_clip_center_refuted : exists m space,
  mt m = CenterSpread /\ length space = length (bnd m) /\ proper_space space /\
  ~ inside space (constrain (Clip space) m).
Proof. exact clip_center_wrong. Qed.
Print Assumptions C03_clip_center_refuted.

(* ----- C04: minimum range ----- *)
Theorem C04_min_range_ordered_partial : forall m mr,
  mt m = OrderedBound -> proper m ->
  let m' := constrain (MinRange mr) m in
  (0 < mr -> wide mr m') /\ proper m' /\
  (forall x, covers m x -> covers m' x) /\
  (forall i b, nth_error (bnd m) i = Some b -> mr <= hi OrderedBound b - lo OrderedBound b ->
     nth_error (bnd m') i = Some b) /\
  (mr <= 0 -> m' = m).
Proof. exact min_range_ordered_all. Qed.
Print Assumptions C04_min_range_ordered_partial.
Theorem C04_min_range_center_partial : forall m mr,
  mt m = CenterSpread -> Forall (fun b => 0 <= snd b) (bnd m) ->
  let m' := constrain (MinRange mr) m in
  (0 < mr -> wide mr m') /\ (forall x, covers m x -> covers m' x) /\ (mr <= 0 -> m' = m).
Proof. exact min_range_center_all. Qed.
Print Assumptions C04_min_range_center_partial.
Example C04_satisfiable :
  let m := mkMatching OrderedBound [(0, 1#4); (0, 5)] in
  proper m /\ ~ wide 1 m /\ wide 1 (constrain (MinRange 1) m).
Proof.
  split; [repeat constructor; vm_compute; discriminate|]. split.
  - intros H. inversion H as [|? ? H1 _]; subst. vm_compute in H1. apply H1; reflexivity.
  - repeat constructor; vm_compute; discriminate.
Qed.
Theorem C04_min_range_unordered_refuted : exists m mr x,
  mt m = UnorderedBound /\ 0 < mr /\ covers m x /\ ~ covers (constrain (MinRange mr) m) x.
Proof. exact min_range_unordered_loses. Qed.
Print Assumptions C04_min_range_unordered_refuted.
Theorem C04_min_range_unordered_width_refuted : exists m mr,
  mt m = UnorderedBound /\ 0 < mr /\ ~ wide mr (constrain (MinRange mr) m).
Proof. exact min_range_unordered_narrow. Qed.
Print Assumptions C04_min_range_unordered_width_refuted.
Theorem C04_min_range_minpct_refuted : exists m mr x,
  mt m = MinPercentage /\ proper m /\ 0 < mr /\ covers m x /\
  ~ covers (constrain (MinRange mr) m) x /\ ~ wide mr (constrain (MinRange mr) m).
Proof. exact min_range_minpct_wrong. Qed.
Print Assumptions C04_min_range_minpct_refuted.

(* ----- C05: the combined constraint on ordered rules ----- *)
Theorem C05_combined_constraint : forall m mr space,
  mt m = OrderedBound -> length space = length (bnd m) -> proper_space space ->
  let m' := constrain (CombinedConstraint mr space) m in
  inside space m' /\
  (proper m -> proper m') /\
  (forall x, in_space space x -> covers m x -> covers m' x).
Proof. exact combined_ordered. Qed.
Print Assumptions C05_combined_constraint.
(* width: at least the minimum range away from the edges, at least half of it (or the whole space) at an edge *)
Theorem C05_combined_width : forall m mr space,
  mt m = OrderedBound -> proper m -> inside space m -> 0 < mr ->
  Forall2 (fun lh b => Qmin (mr / 2) (snd lh - fst lh) <= hi OrderedBound b - lo OrderedBound b)
          space (bnd (constrain (CombinedConstraint mr space) m)) /\
  (Forall2 (fun lh b => fst lh <= fst b - mr / 2 /\ snd b + mr / 2 <= snd lh) space (bnd m) ->
   wide mr (constrain (CombinedConstraint mr space) m)).
Proof. exact combined_ordered_width. Qed.
Print Assumptions C05_combined_width.
Example C05_satisfiable :
  let m := mkMatching OrderedBound [(0, 1#4); (1, 1)] in let space := [(0, 2); (0, 2)] in
  proper m /\ inside space m /\ proper_space space /\ length space = length (bnd m).
Proof. repeat split; repeat constructor; vm_compute; discriminate. Qed.
(* at an edge the full width is not reached although the space is wide enough *)
Theorem C05_edge_can_cut_width : exists m mr space,
  mt m = OrderedBound /\ proper m /\ inside space m /\ 0 < mr /\
  Forall (fun lh => mr <= snd lh - fst lh) space /\
  ~ wide mr (constrain (CombinedConstraint mr space) m).
Proof. exact combined_edge_narrow. Qed.
Print Assumptions C05_edge_can_cut_width.
