(* C61: every rule of a learned model lies in the region its constraint allows. *)
From Coq Require Import Qminmax.
From Verif Require Import PyNum PyList PyMon PyRng M_Matching S_Matching M_Rule M_RuleGen M_Discovery S_Discovery L_RuleProps L_DiscoveryEx M_Novelty M_Fit S_Fit L_FitEx M_Shipped S_Shipped L_ShippedEx L_PredictingEx
  S_Constrained L_Constrained L_ConstrainedEx.

(* ordered bounds, clipped to a region the user gave or to that of the training data, with any composition *)
Theorem C61_rules_inside : forall (L : learner) rngof (D : discovery L) k (C : composition L) (G : logger L) p os X y d space (e e' : est D C G),
  works_with L rngof D OrderedBound k -> table d X y -> given_dim d k -> clips_to X k space -> fit p os false X y e = (Ok tt, e') -> is_error e' = false ->
  Forall (fun r => proper (cond r) /\ inside space (cond r)) (pool e').
Proof. exact rules_inside. Qed.
Print Assumptions C61_rules_inside.
Theorem C61_rules_wide : forall (L : learner) rngof (D : discovery L) mr (C : composition L) (G : logger L) p os X y d (e e' : est D C G),
  works_with L rngof D OrderedBound (GivenMinRange mr) -> 0 < mr -> table d X y -> fit p os false X y e = (Ok tt, e') -> is_error e' = false ->
  Forall (fun r => proper (cond r) /\ wide mr (cond r)) (pool e').
Proof. exact rules_wide. Qed.
Print Assumptions C61_rules_wide.
(* the evolution strategy as it comes, with both constraints *)
Theorem C61_growing_rules_keep_width : forall (L : learner) rngof (c : escfg) mr (C : composition L) (G : logger L) p os X y d space (e e' : est (es_discovery L rngof c (GivenCombined mr None)) C G),
  d_type (es_d c) = OrderedBound -> d_init (es_d c) = MeanInit -> growing (es_mut c) -> 0 < mr -> table d X y -> bounding X space -> fit p os false X y e = (Ok tt, e') -> is_error e' = false ->
  Forall (fun r => proper (cond r) /\ inside space (cond r) /\ roomy mr space (cond r)) (pool e').
Proof. exact growing_rules_roomy. Qed.
Print Assumptions C61_growing_rules_keep_width.
(* the other two encodings: limits of what is stored, not of what is matched *)
Theorem C61_numbers_limited_partial : forall (L : learner) rngof (D : discovery L) t k (C : composition L) (G : logger L) p os X y d space (e e' : est D C G),
  works_with L rngof D t k -> t = CenterSpread \/ t = MinPercentage -> table d X y -> given_dim d k -> clips_to X k space -> fit p os false X y e = (Ok tt, e') -> is_error e' = false ->
  Forall (fun r => Forall (fun b => -(1) <= fst b <= 1 /\ 0 <= snd b <= 2) (bnd (cond r))) (pool e').
Proof. exact rules_limited. Qed.
Print Assumptions C61_numbers_limited_partial.
(* one fit call for each of the four theorems, and one with novelty search; all of them learn rules *)
Example C61_satisfiable :
  works_with ML tapes (es_t OrderedBound (MutHalfnormIncrease (Scalar 1))) OrderedBound usual /\ works_with ML tapes ns1 OrderedBound (GivenClip None) /\ works_with ML tapes rs_w OrderedBound (GivenMinRange 1) /\
  works_with ML tapes (rs_t CenterSpread (NormalInit (Pair 1 1))) CenterSpread usual /\ growing (Mut (MutHalfnormIncrease (Scalar 1))) /\
  table 1 dx dyy /\ given_dim 1 usual /\ clips_to dx usual [(0, 2)] /\ clips_to dx (GivenClip None) [(0, 2)] /\
  Forall (fun D => fst (plain_run D dx dyy par1) = Ok tt /\ is_error (plain_end D dx dyy par1) = false /\ (2 <= length (pool (plain_end D dx dyy par1)))%nat)
    [es_t OrderedBound (MutHalfnormIncrease (Scalar 1)); ns1; rs_w; rs_t CenterSpread (NormalInit (Pair 1 1))].
Proof.
  split; [apply (With_es ML tapes (es_c OrderedBound (MutHalfnormIncrease (Scalar 1))) usual)|].
  split; [apply (With_ns ML tapes (mkNs (d1 UniformSamples) 2 2 4 1 1 true (1#2) (Mut (MutNormal (Scalar (1#4)))) RFittest NBasic TBasic ANovel 1) (GivenClip None))|].
  split; [apply (With_rs ML tapes (rs_c OrderedBound (NormalInit (Scalar 1))) (GivenMinRange 1))|]. split; [apply (With_rs ML tapes (rs_c CenterSpread (NormalInit (Pair 1 1))) usual)|].
  split; [constructor; discriminate|]. split; [exact dx_table|]. split; [exact I|]. split; [constructor; exact dx_bounding|]. split; [constructor; exact dx_bounding|].
  repeat (apply Forall_cons; [split; [vm_compute; reflexivity|split; [vm_compute; reflexivity|vm_compute; repeat constructor]]|]). constructor.
Qed.
(* unordered bounds are never clipped *)
Theorem C61_unordered_outside_refuted : exists (L : learner) rngof (D : discovery L) k (C : composition L) (G : logger L) p X y d space (e' : est D C G) r,
  works_with L rngof D UnorderedBound k /\ table d X y /\ given_dim d k /\ clips_to X k space /\ fit p 0 false X y (unfitted D C G) = (Ok tt, e') /\ is_error e' = false /\ In r (pool e') /\ ~ inside space (cond r).
Proof. exact unordered_outside. Qed.
Print Assumptions C61_unordered_outside_refuted.
(* centres are clipped, but the intervals around them reach out *)
Theorem C61_center_outside_refuted : exists (L : learner) rngof (D : discovery L) k (C : composition L) (G : logger L) p X y d space (e' : est D C G) r,
  works_with L rngof D CenterSpread k /\ table d X y /\ given_dim d k /\ clips_to X k space /\ fit p 0 false X y (unfitted D C G) = (Ok tt, e') /\ is_error e' = false /\ In r (pool e') /\ ~ inside [(-(1), 1)] (cond r).
Proof. exact center_outside. Qed.
Print Assumptions C61_center_outside_refuted.
(* a condition drawn beyond the edge is clipped to a single point, although both constraints are set and the region is wide enough *)
Theorem C61_width_lost_refuted : exists (L : learner) rngof (D : discovery L) mr (C : composition L) (G : logger L) p X y d space (e' : est D C G) r,
  works_with L rngof D OrderedBound (GivenCombined mr None) /\ 0 < mr /\ table d X y /\ bounding X space /\ Forall (fun lh => mr <= snd lh - fst lh) space /\
  fit p 0 false X y (unfitted D C G) = (Ok tt, e') /\ is_error e' = false /\ In r (pool e') /\ Forall (fun b => hi OrderedBound b == lo OrderedBound b) (bnd (cond r)).
Proof. exact zero_width. Qed.
Print Assumptions C61_width_lost_refuted.
