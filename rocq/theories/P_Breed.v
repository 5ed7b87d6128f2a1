(* C76: the course of novelty search; C36: rules that were compared before. *)
From Coq Require Import Permutation.
From Verif Require Import PyNum PyList PyMon PyRng M_Matching S_Matching M_Rule S_Rule L_RuleProps M_RuleGen M_Mixing M_GenomeOps L_GenomeProps M_Discovery S_Discovery L_DiscoveryEx M_Novelty S_Novelty L_NoveltyEx S_Breed L_BreedEx.

(* every iteration of the loop is one generation *)
Theorem C76_one_generation : forall (L : learner) X y d (c : nscfg) pool el mx n pop best (st : nst L) out st',
  table d X y -> X <> [] -> (forall m e, exists q, rfitness L m e = Fin q) -> space_dim d (d_constraint (ns_d c)) -> type_ok (ns_type c) ->
  ready d X y st -> Forall (live st) pop -> ns_loop c (mkDenv X y pool el mx) (S n) pop best st = (Ok out, st') ->
  exists pop1 best1 st1, generation c X y pop best st pop1 best1 st1 /\ ready d X y st1 /\ Forall (live st1) pop1 /\
    ns_loop c (mkDenv X y pool el mx) n pop1 best1 st1 = (Ok out, st').
Proof. intros L X y d c pool el mx n pop best st out st' HT HX HP. exact (one_generation L X y d HT HX HP c pool el mx n pop best st out st'). Qed.
Print Assumptions C76_one_generation.
(* over all generations no rule changes, at most lambda rules are made per generation, and only matching children enter the archive, at most roh per generation *)
Theorem C76_course : forall (L : learner) X y d (c : nscfg) pool el mx n pop (st : nst L) out st',
  table d X y -> X <> [] -> (forall m e, exists q, rfitness L m e = Fin q) -> space_dim d (d_constraint (ns_d c)) -> type_ok (ns_type c) ->
  ready d X y st -> Forall (live st) pop -> ns_loop c (mkDenv X y pool el mx) n pop [] st = (Ok out, st') ->
  same_rules st st' /\ (length (cells st) <= length (cells st') <= length (cells st) + n * ns_lambda c)%nat /\
  (exists new, arch st' = arch st ++ new /\
    (ns_use_pop c = false -> Forall (descends c X y (length (cells st)) st') new /\ (length new <= n * match ns_archive c with ANone => 0 | _ => ns_roh c end)%nat)) /\
  NoDup out /\ (length out <= ns_mu c)%nat /\ Forall (descends c X y (length (cells st)) st') out.
Proof. intros L X y d c pool el mx n pop st out st' HT HX HP. exact (whole_course L X y d HT HX HP c pool el mx n pop st out st'). Qed.
Print Assumptions C76_course.
(* the rules a search returns are distinct children, at most mu; none is of the pool or of the initial population;
   the archive starts with the pool *)
Theorem C76_rules_found : forall (L : learner) X y d (c : nscfg) (pool : list (cell L)) el mx n g out g',
  table d X y -> X <> [] -> (forall m e, exists q, rfitness L m e = Fin q) -> space_dim d (d_constraint (ns_d c)) -> type_ok (ns_type c) ->
  Forall (searched d X y) pool -> ns_optimize c X y pool el mx n g = (Ok out, g') ->
  exists st ids new, ns_run c (mkDenv X y (map crule pool) el mx) n (mkNst pool (seq 0 (length pool)) g) = (Ok out, st) /\ arch st = seq 0 (length pool) ++ new /\
    (forall i x, nth_error pool i = Some x -> rule_at st i (crule x)) /\
    NoDup ids /\ (length ids <= Nat.min n (ns_mu c))%nat /\ Forall (descends c X y (length pool + ns_mu c) st) ids /\ Forall2 (fun i x => rule_at st i (crule x)) ids out.
Proof. intros L X y d c pool el mx n g out g' HT HX HP. exact (found L X y d HT HX HP c pool el mx n g out g'). Qed.
Print Assumptions C76_rules_found.
(* so without iterations there are none *)
Theorem C76_no_iterations : forall (L : learner) X y (c : nscfg) (pool : list (cell L)) el mx n g out g',
  ns_iter c = 0%nat -> ns_optimize c X y pool el mx n g = (Ok out, g') -> out = [].
Proof. exact no_iterations. Qed.
Print Assumptions C76_no_iterations.
Example C76_satisfiable :
  let c := ns_conf 2 NBasic TBasic ANovel in
  table 1 dx dyy /\ dx <> [] /\ (forall m e, exists q, rfitness mean_learner m e = Fin q) /\ space_dim 1 (d_constraint (ns_d c)) /\ type_ok (ns_type c) /\
  ready 1 dx dyy nst1 /\ Forall (live nst1) [1; 2; 3]%nat /\ (exists i j st', ns_loop c small_env 2 [1; 2; 3]%nat [] nst1 = (Ok [i; j], st')) /\
  Forall (searched 1 dx dyy) [old_cell (on_data dx dyy 0 1)] /\
  (exists r1 r2 g', ns_optimize c dx dyy [old_cell (on_data dx dyy 0 1)] None (mkMixing KeepAll ExpAsIs 1) 2 (scripted [2; 2]) = (Ok [r1; r2], g')) /\
  exists g', ns_optimize (ns_conf 0 NBasic TBasic ANovel) dx dyy [old_cell (on_data dx dyy 0 1)] None (mkMixing KeepAll ExpAsIs 1) 2 (scripted [2; 2]) = (Ok [], g').
Proof.
  split; [exact dx_table|]. split; [discriminate|]. split; [exact mean_finite|]. split; [reflexivity|]. split; [exact I|]. split; [exact nst1_ready|]. split; [exact nst1_live|].
  split; [do 3 eexists; vm_compute; reflexivity|]. split; [exact old_searched|]. split; [do 3 eexists; vm_compute; reflexivity|]. eexists; vm_compute; reflexivity.
Qed.
(* an odd lambda: "each generation lambda children will be generated", but the last parent stays alone *)
Theorem C76_lambda_children_refuted : exists (c : nscfg) (D : denv mean_learner) pop (st : nst mean_learner) out st',
  ns_new c = Ok c /\ ready 1 (dX D) (dy D) st /\ Forall (live st) pop /\ ns_loop c D 1 pop [] st = (Ok out, st') /\ out <> [] /\
  (length (cells st') < length (cells st) + ns_lambda c)%nat.
Proof. exact fewer_children. Qed.
Print Assumptions C76_lambda_children_refuted.
(* the attributes of the search stay on the rules that enter the pool *)
Theorem C76_attributes_removed_refuted : exists (c : nscfg) (pool : list (cell mean_learner)) n g x out g', ns_new c = Ok c /\
  ns_optimize c dx dyy pool None (mkMixing KeepAll ExpAsIs 1) n g = (Ok (x :: out), g') /\ cdist x <> None /\ cidx x <> None.
Proof. exact attributes_stay. Qed.
Print Assumptions C76_attributes_removed_refuted.
(* C36: a rule compared before is not compared with what entered the archive since, so its score is not that of the current archive *)
Theorem C36_seen_rules_refuted : exists (c : nscfg) (st s1 s2 st' : nst mean_learner) i j o1 o2 s ds, ready 1 dx dyy st /\ unseen st i /\ unseen st j /\
  rule_selection c [i] 1 0 st = (Ok o1, s1) /\ rule_selection c [j] 1 1 s1 = (Ok o2, s2) /\ arch s2 = arch st ++ [j] /\
  novelty NBasic TBasic 2 [i] s2 = (Ok [i], st') /\ novelty_is st' i (Fin s) /\
  Forall2 (fun j q => exists a b, matches_are s2 i a /\ matches_are s2 j b /\ distance_is a b q) (arch s2 ++ [i]) ds /\
  ~ mean_of_smallest (Nat.min 2 (length (arch s2 ++ [i]) - 1)) ds s.
Proof. exact stale_score. Qed.
Print Assumptions C36_seen_rules_refuted.
