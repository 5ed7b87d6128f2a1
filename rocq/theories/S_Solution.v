(* Specification vocabulary for solution objects. *)
From Verif Require Import PyNum PyList PyMon PyRng M_Matching M_Rule M_Mixing M_Solution.

Section Spec.
Variable K : skind.

(* what an object shows: its genome bits, its measured values *)
Definition shows (s : hst K) (r : nat) (bits : list bool) (a : option satts) : Prop :=
  exists o, nth_error (sols s) r = Some o /\ nth_error (garr s) (gref o) = Some bits /\ satt o = a.
(* the further attributes of a subclass *)
Definition has_ext (s : hst K) (r : nat) (x : ext K) : Prop := exists o, nth_error (sols s) r = Some o /\ sext o = x.
Definition live (s : hst K) (r : nat) : Prop := (r < length (sols s))%nat.
(* no dangling genome, no genome shared by two objects *)
Definition wf (s : hst K) : Prop :=
  (forall r o, nth_error (sols s) r = Some o -> (gref o < length (garr s))%nat) /\
  (forall r1 r2 o1 o2, nth_error (sols s) r1 = Some o1 -> nth_error (sols s) r2 = Some o2 ->
                       gref o1 = gref o2 -> r1 = r2).

(* the measured values of r are those of its current genome *)
Definition honest {L} (E : env L) (s : hst K) (r : nat) : Prop :=
  exists bits a g g', shows s r bits (Some a) /\ length bits = length (epool E) /\
    sol_fit L (emix E) (efit E) bits (epool E) (eX E) (ey E) g = (Ok a, g').

(* everything the code can do to solution objects *)
Inductive hop {L : learner} : Type :=
| HNew (bits : list bool)
| HClone (r : nat)
| HCloneWith (r : nat) (bits : list bool)
| HRebind (r : nat) (bits : list bool)                   (* solution.genome = ... *)
| HWrite (r : nat) (i : nat) (b : bool)                  (* solution.genome[i] = b *)
| HFit (r : nat) (E : env L)
| HSetExt (r : nat) (x : ext K).
Arguments hop : clear implicits.
Definition run_op {L} (h : hop L) : HSt K unit :=
  match h with
  | HNew bits => new_sol bits ;; ret tt
  | HClone r => clone r ;; ret tt
  | HCloneWith r bits => clone_with r bits ;; ret tt
  | HRebind r bits => set_genome r bits
  | HWrite r i b => write_genome r (fun bits => update bits i b)
  | HFit r E => fit E r ;; ret tt
  | HSetExt r x => set_ext r x
  end.
(* the object an operation may change *)
Definition changes {L} (h : hop L) : option nat :=
  match h with
  | HRebind r _ | HWrite r _ _ | HFit r _ | HSetExt r _ => Some r
  | HNew _ | HClone _ | HCloneWith _ _ => None
  end.
(* a history: an operation that raises leaves the heap as it is at that point, the program goes on *)
Fixpoint run_ops {L} (hs : list (hop L)) (s : hst K) : hst K :=
  match hs with [] => s | h :: hs' => run_ops hs' (snd (run_op h s)) end.
End Spec.
Arguments hop : clear implicits.
Arguments shows {K}. Arguments has_ext {K}. Arguments live {K}. Arguments wf {K}. Arguments honest {K L}.
Arguments run_op {K L}. Arguments changes {K L}. Arguments run_ops {K L}.
Arguments HNew {K L}. Arguments HClone {K L}. Arguments HCloneWith {K L}. Arguments HRebind {K L}.
Arguments HWrite {K L}. Arguments HFit {K L}. Arguments HSetExt {K L}.

(* r is measured, with fitness f *)
Definition has_fit {K} (s : hst K) (r : nat) (f : num) : Prop := exists bits a, shows s r bits (Some a) /\ f = sfitness a.

(* the mixing model does not draw random numbers *)
Definition deterministic (mx : mixing) : Prop := mfilter mx = KeepAll \/ exists n, mfilter mx = NBestFitness n.

(* every heap a program can build from nothing *)
Definition built {K} (s : hst K) : Prop := exists L (hs : list (hop K L)) g, s = run_ops hs (mkH [] [] g).

(* a genome extended to length n without changing the bits it had; zero padding adds only zeros *)
Definition padded (i : sinit) (n : nat) (bits bits' : list bool) : Prop :=
  exists extra, bits' = bits ++ extra /\ length bits' = n /\ (i = ZeroInit -> extra = repeat false (length extra)).

