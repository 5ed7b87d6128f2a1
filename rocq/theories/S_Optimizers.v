(* The metaheuristics for solution composition that come with the library, each with the attributes it starts with.
   The self-adapting genetic algorithms assert an even population size when they run. *)
From Verif Require Import PyNum PyList PyMon PyRng M_Matching M_Rule M_Mixing M_Solution S_Solution M_Composition S_Composition M_GenomeOps M_GA M_Saga M_Sas M_Aco M_Abc M_Swarm.

Inductive shipped : forall K (O : optimizer K), ostate O -> Prop :=
| Ship_ga c : shipped plain (ga c) tt
| Ship_rs ni size : shipped plain (rs ni size) tt
| Ship_saga1 c r : Nat.even (s1_size c) = true -> shipped plain (saga1 c) r
| Ship_saga2 t c r : Nat.even (s2_size c) = true -> shipped plain (saga2 t c) r
| Ship_saga3 c : Nat.even (s3_size c) = true -> shipped saga_sol (saga3 c) tt
| Ship_sas c size : shipped sas_sol (sas c) size
| Ship_aco_binary A b c : shipped plain (aco (Binary A b) c) None
| Ship_aco_complete A b partial c : shipped plain (aco (Complete A b partial) c) None
| Ship_bees M c : shipped plain (bees M c) tt
| Ship_swarm M c : shipped plain (swarm M c) tt
| Ship_wolves M c : shipped plain (wolves M c) tt.
Arguments shipped {K}.

(* the genome of r is as long as the pool, so its rules can be looked up *)
Definition fits_the_pool {K L} (E : env L) (s : hst K) (r : nat) : Prop :=
  exists bits a rs, shows s r bits (Some a) /\ length bits = length (epool E) /\ subpopulation L bits (epool E) = Ok rs.
(* the optimizers that move the population they are given *)
Inductive keeps_size : forall K (O : optimizer K), Prop :=
| Keep_aco B c : keeps_size plain (aco B c)
| Keep_bees M c : keeps_size plain (bees M c)
| Keep_swarm M c : keeps_size plain (swarm M c)
| Keep_wolves M c : keeps_size plain (wolves M c).
Arguments keeps_size {K}.
(* some run that starts with an empty pool ends with one member although size were asked for *)
Definition ends_alone {K} (O : optimizer K) (i : ostate O) (size : nat) : Prop :=
  osize O i = size /\ exists L (E0 E : env L) g st s, epool E0 = [] /\ extends E0 E /\ epool E <> [] /\
    compose O (mkCcfg ZeroInit true true) [(E0, g); (E, g); (E, g)] (fresh_comp O i) (mkH [] [] g) = (Ok st, s) /\ length (cpop st) = 1%nat.
(* the elitist after all steps is less fit than the one after the first ones *)
Definition worse_later {K L} (O : optimizer K) c (first later : list (env L * rng)) (i : ostate O) : Prop :=
  exists g0 st1 s1 st2 s2 r1 r2 f1 f2, 
    compose O c first (fresh_comp O i) (mkH [] [] g0) = (Ok st1, s1) /\
    compose O c (first ++ later) (fresh_comp O i) (mkH [] [] g0) = (Ok st2, s2) /\
    elitist st1 s1 = (Ok (Some r1), s1) /\ elitist st2 s2 = (Ok (Some r2), s2) /\ has_fit s1 r1 f1 /\ has_fit s2 r2 f2 /\ nlt f2 f1 = true.
