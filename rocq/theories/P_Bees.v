(* C74: how bees choose a partner and move. *)
From Verif Require Import PyNum PyList PyMon PyRng PyStat M_Matching M_Rule L_RuleProps M_Mixing M_Solution S_Solution M_Composition S_Composition M_GenomeOps S_GenomeOps
  L_GenomeProps M_Abc S_Abc S_Moves S_Bees L_Bees L_BeesEx.

(* the traditional update, as written down; it reads one number per rule for the factor and one for the draw *)
Theorem C74_sigmoid : forall M own other (s : hst plain), length other = length own ->
  exists bits s', food_bits M FSigmoid own other s = (Ok bits, s') /\ garr s' = garr s /\ sols s' = sols s /\ hrng s' = later (length own + length own) (hrng s) /\ drifted M (hrng s) own other bits.
Proof. intros M own other s H. destruct (sigmoid_food M own other s H) as (bits & H1 & H2). exists bits. eexists. split; [exact H1|]. split; [reflexivity|]. split; [reflexivity|]. split; [reflexivity|exact H2]. Qed.
Print Assumptions C74_sigmoid.
(* the bitwise update, as written down: one coin per rule, and rules that neither source has stay out *)
Theorem C74_bitwise : forall M own other (s : hst plain), length other = length own ->
  exists bits s', food_bits M FBitwise own other s = (Ok bits, s') /\ garr s' = garr s /\ sols s' = sols s /\ hrng s' = later (length own) (hrng s) /\ toggled (hrng s) own other bits.
Proof. intros M own other s H. destruct (bitwise_food M own other s H) as (bits & H1 & H2). exists bits. eexists. split; [exact H1|]. split; [reflexivity|]. split; [reflexivity|]. split; [reflexivity|exact H2]. Qed.
Print Assumptions C74_bitwise.
(* every combination of coins is possible *)
Theorem C74_bitwise_any_coins : forall want : nat -> bool, exists g, forall i, coin g i = want i.
Proof. intros want. destruct (coin_any want) as (g & _ & H). exists g. exact H. Qed.
Print Assumptions C74_bitwise_any_coins.
(* dimension flips take rate * length bits, rounded up, from the other source *)
Theorem C74_flips : forall M rate own other (s : hst plain) k, length other = length own -> rounded_up (qofnat (length own) * rate) k -> (0 <= k <= Z.of_nat (length own))%Z ->
  exists dims bits s', food_bits M (FDimensionFlips rate) own other s = (Ok bits, s') /\ choice_of (length own) k dims /\ patched dims own other bits /\ garr s' = garr s /\ sols s' = sols s.
Proof. exact flips_food. Qed.
Print Assumptions C74_flips.
(* any such set of positions can be drawn *)
Theorem C74_flips_any : forall M rate own other ga so k dims, length other = length own -> rounded_up (qofnat (length own) * rate) k -> choice_of (length own) k dims ->
  exists g bits s', food_bits M (FDimensionFlips rate) own other (mkH ga so g) = (Ok bits, s') /\ patched dims own other bits.
Proof. exact flips_any. Qed.
Print Assumptions C74_flips_any.
(* a flip rate outside its range is refused here, and only here, by the generator *)
Theorem C74_flips_refused : forall M rate own other (s : hst plain) k, rounded_up (qofnat (length own) * rate) k -> (k < 0 \/ Z.of_nat (length own) < k)%Z ->
  fst (food_bits M (FDimensionFlips rate) own other s) = Raise ValueError.
Proof. exact flips_refused. Qed.
Print Assumptions C74_flips_refused.
(* a bee may look at its own source: flips change nothing then, the bitwise update can only lose rules; flipping everything copies the other source *)
Theorem C74_own_source : forall own other bits g dims,
  (patched dims own own bits -> bits = own) /\
  (toggled g own own bits -> forall i, nth_error own i = Some false -> nth_error bits i = Some false) /\
  (length other = length own -> choice_of (length own) (Z.of_nat (length own)) dims -> patched dims own other bits -> bits = other).
Proof. intros. split; [exact (patched_same dims own bits)|]. split; [exact (toggled_same g own bits)|exact (patched_all own other bits dims)]. Qed.
Print Assumptions C74_own_source.

(* one iteration: employed bees with equally likely partners, onlookers with partners drawn by fitness, then scouts.
   Whatever its fitness, every source is visited once in each of the two phases. *)
Theorem C74_iteration : forall {L} (E : env L) M c ini fs (s : hst plain) fs' s', wf s -> Forall (honest E s) (map src fs) ->
  bee_step M c E ini fs s = (Ok fs', s') ->
  exists p1 s1 fs1 qs p2 s2 fs2,
    length p1 = be_size c /\ (forall j p, nth_error p1 j = Some p -> any_partner (hrng s) fs j p) /\ visited E (be_food c) p1 s s1 fs fs1 /\
    Forall2 (has_fit s1) (map src fs1) (map Fin qs) /\ one_sign qs /\
    length p2 = be_size c /\ (forall j p, nth_error p2 j = Some p -> wheel_partner (hrng s1) qs fs1 j p) /\ visited E (be_food c) p2 s1 s2 fs1 fs2 /\
    scouted_all E (be_limit c) s2 s' fs2 fs'.
Proof. intros L E. exact (step_parts E). Qed.
Print Assumptions C74_iteration.
(* with positive fitness the fitter source has the larger share of the wheel, with negative fitness the less fit *)
Theorem C74_shares : forall qs w i j qi qj wi wj, Forall2 (fun q x => x == q / qsum qs) qs w ->
  nth_error qs i = Some qi -> nth_error qs j = Some qj -> nth_error w i = Some wi -> nth_error w j = Some wj -> qi < qj ->
  (0 < qsum qs -> wi < wj) /\ (qsum qs < 0 -> wj < wi).
Proof. exact fair_share. Qed.
Print Assumptions C74_shares.
(* "onlookers prefer fitter sources" fails: a run with negative fitness goes through, and there the less fit source has the larger share *)
Theorem C74_prefers_fitter_refuted : exists (L : learner) (E : env L) M c ini fs (s : hst plain) qs w,
  wf s /\ Forall (honest E s) (map src fs) /\ (exists fs' s', bee_step M c E ini fs s = (Ok fs', s')) /\
  Forall2 (has_fit s) (map src fs) (map Fin qs) /\ one_sign qs /\ Forall2 (fun q x => x == q / qsum qs) qs w /\
  exists i j qi qj wi wj, nth_error qs i = Some qi /\ nth_error qs j = Some qj /\ nth_error w i = Some wi /\ nth_error w j = Some wj /\ qi < qj /\ wj < wi.
Proof.
  destruct minus_hive as (H1 & H2 & H3 & H4).
  exists mean_learner, (count_env by_minus_count), plain_math, two_bees, (RandomInit (1 # 2)), two_sources, (hive by_minus_count [true; true; true] [true; false; false] (scripted [])), [-(4); -(2)], [2 # 3; 1 # 3].
  split; [apply hive_wf|]. split; [exact H1|]. split; [exact H2|]. split; [constructor; [exact H3|constructor; [exact H4|constructor]]|].
  split; [right; split; [reflexivity|repeat constructor; discriminate]|]. split; [repeat constructor|].
  exists 0%nat, 1%nat, (-(4)), (-(2)), (2 # 3), (1 # 3). repeat split; reflexivity.
Qed.
Print Assumptions C74_prefers_fitter_refuted.
(* "an iteration never fails on measured sources" fails: when every source has fitness zero the shares are not numbers *)
Theorem C74_iteration_succeeds_refuted : exists (L : learner) (E : env L) M c ini fs (s : hst plain),
  wf s /\ Forall (honest E s) (map src fs) /\ fst (bee_step M c E ini fs s) = Raise ValueError.
Proof.
  destruct all_selected as (H1 & H2). exists mean_learner, (count_env by_left_out), plain_math, two_bees, (RandomInit (1 # 2)), two_sources, (hive by_left_out [true; true; true] [true; true; true] (scripted [])).
  split; [apply hive_wf|]. split; [exact H1|exact H2].
Qed.
Print Assumptions C74_iteration_succeeds_refuted.

(* genomes that differ; half of three bits, rounded up, are two; a choice of two positions; all of them *)
Example C74_satisfiable : exists own other k dims, length other = length own /\ own <> other /\ rounded_up (qofnat (length own) * (1 # 2)) k /\ (0 <= k <= Z.of_nat (length own))%Z /\
  choice_of (length own) k dims /\ patched dims own other [false; false; true].
Proof.
  exists [true; false; false], [false; true; true], 2%Z, [2; 0]%nat. split; [reflexivity|]. split; [discriminate|]. split; [split; vm_compute; [discriminate|reflexivity]|].
  split; [split; discriminate|]. split.
  - split; [repeat constructor; cbn; intuition discriminate|]. split; [repeat constructor|reflexivity].
  - split; [reflexivity|]. intros [|[|[|i]]]; cbn; split; intros H; try reflexivity; try tauto; try (exfalso; apply H; auto; fail); try (exfalso; intuition discriminate); destruct i; reflexivity.
Qed.
Example C74_refused_satisfiable : exists own : list bool, rounded_up (qofnat (length own) * (3 # 2)) 5 /\ (Z.of_nat (length own) < 5)%Z /\ rounded_up (qofnat (length own) * (-(1 # 2))) (-1) /\ (-1 < 0)%Z.
Proof. exists [true; false; false]. split; [split; vm_compute; [discriminate|reflexivity]|]. split; [reflexivity|]. split; [split; vm_compute; [discriminate|reflexivity]|reflexivity]. Qed.
Example C74_iteration_satisfiable : exists (s : hst plain) fs' s', wf s /\ Forall (honest (count_env by_minus_count) s) (map src two_sources) /\
  bee_step plain_math two_bees (count_env by_minus_count) (RandomInit (1 # 2)) two_sources s = (Ok fs', s').
Proof. destruct minus_hive as (H1 & (fs' & s' & H2) & _). eexists. exists fs', s'. split; [apply hive_wf|]. split; [exact H1|exact H2]. Qed.
Example C74_shares_satisfiable : exists qs w, Forall2 (fun q x => x == q / qsum qs) qs w /\ 0 < qsum qs /\ nth_error qs 0 = Some 1 /\ nth_error qs 1 = Some 3.
Proof. exists [1; 3], [1 # 4; 3 # 4]. split; [repeat constructor|]. split; [reflexivity|]. split; reflexivity. Qed.
