(* Properties C19 and C20: copies of solutions, padding of genomes. *)
From Verif Require Import PyNum PyList PyMon PyRng M_Matching M_Rule L_RuleProps M_Mixing L_MixingProps M_Solution S_Solution
  L_HeapProps.

(* ----- C19: copies are independent: for every program built from the operations on solutions, before and after ----- *)
Theorem C19_clone_independent : forall {K L} (s : hst K) r c s',
  built s -> clone r s = (Ok c, s') ->
  c <> r /\ ~ live s c /\
  (exists bits a, shows s r bits (Some a) /\ shows s' r bits (Some a) /\ shows s' c bits (Some a)) /\
  forall (hs : list (hop K L)),
    (Forall (fun h => changes h <> Some c) hs ->
     forall bits a, shows s' c bits a -> shows (run_ops hs s') c bits a) /\
    (Forall (fun h => changes h <> Some r) hs ->
     forall bits a, shows s' r bits a -> shows (run_ops hs s') r bits a).
Proof. exact @clone_independent. Qed.
Print Assumptions C19_clone_independent.
Theorem C19_clone_with_genome_is_unmeasured : forall {K} (s : hst K) r bits c s',
  built s -> clone_with r bits s = (Ok c, s') ->
  c <> r /\ shows s' c bits None /\ fitness c s' = (Raise AttributeError, s') /\
  forall bits0 a, shows s r bits0 a -> shows s' r bits0 a.
Proof. exact @clone_with_unmeasured. Qed.
Print Assumptions C19_clone_with_genome_is_unmeasured.

(* an in-place write to the original after cloning changes the original and not the clone *)
Example C19_satisfiable :
  built ex_heap /\
  exists s', clone 0 ex_heap = (Ok 1%nat, s') /\
  let s2 := run_ops [HWrite 0 0 false; HRebind (L := mean_learner) 0 [true]] s' in
  (exists a, shows s2 1 [true; false; true] (Some a)) /\ (exists a, shows s2 0 [true] (Some a)) /\
  let s3 := run_ops [HWrite (L := mean_learner) 1 0 false] s' in
  (exists a, shows s3 1 [false; false; true] (Some a)) /\ (exists a, shows s3 0 [true; false; true] (Some a)).
Proof.
  split; [eexists _, _, _; reflexivity|]. eexists. split; [vm_compute; reflexivity|].
  split; [do 2 eexists; vm_compute; repeat split; reflexivity|].
  split; [do 2 eexists; vm_compute; repeat split; reflexivity|].
  split; do 2 eexists; vm_compute; repeat split; reflexivity.
Qed.

(* ----- C20: padding keeps the selected rules ----- *)
Theorem C20_padding_extends : forall {K} i r n (s : hst K) bits a,
  built s -> shows s r bits a -> (length bits <= n)%nat ->
  exists s' bits', init_pad i n r s = (Ok r, s') /\ shows s' r bits' a /\ padded i n bits bits' /\
    forall q b c, q <> r -> shows s q b c -> shows s' q b c.
Proof. exact @padding. Qed.
Print Assumptions C20_padding_extends.
Theorem C20_padding_keeps_rules : forall {L} i (pool new : list (rule L)) bits bits',
  length bits = length pool -> padded i (length (pool ++ new)) bits bits' ->
  exists rs rs' added, subpopulation L bits pool = Ok rs /\ subpopulation L bits' (pool ++ new) = Ok rs' /\
    rs' = rs ++ added /\ incl added new /\ (i = ZeroInit -> added = []).
Proof. exact @padded_rules. Qed.
Print Assumptions C20_padding_keeps_rules.
Theorem C20_shrunk_pool_is_an_error : forall {K} i n r (s : hst K) bits a,
  built s -> shows s r bits a -> (n < length bits)%nat -> fst (init_pad i n r s) = Raise ValueError.
Proof. exact @pad_shrunk. Qed.
Print Assumptions C20_shrunk_pool_is_an_error.
Example C20_satisfiable :
  built ex_heap /\ (exists a, shows ex_heap 0 [true; false; true] a) /\ (3 <= 5)%nat /\
  fst (init_pad (RandomInit (1#2)) 5 0 ex_heap) = Ok 0%nat /\
  (exists a, shows (snd (init_pad (RandomInit (1#2)) 5 0 ex_heap)) 0 [true; false; true; true; true] a) /\
  length [true; false] = length [fitted_rule 0 1 1 1 1; fitted_rule 2 3 1 1 1] /\ padded ZeroInit 3 [true; false] [true; false; false].
Proof.
  split; [eexists _, _, _; reflexivity|]. split; [do 2 eexists; vm_compute; repeat split; reflexivity|].
  split; [repeat constructor|]. split; [vm_compute; reflexivity|].
  split; [do 2 eexists; vm_compute; repeat split; reflexivity|]. split; [reflexivity|].
  exists [false]. repeat split.
Qed.
