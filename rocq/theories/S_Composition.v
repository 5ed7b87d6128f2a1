(* Specification vocabulary for whole learning runs. *)
From Verif Require Import PyNum PyList PyMon PyRng M_Matching M_Rule M_Mixing M_Solution S_Solution.

(* the next step of the same fit call: rules were appended to the pool, nothing else changed *)
Definition extends {L} (E1 E2 : env L) : Prop :=
  (exists new, epool E2 = epool E1 ++ new) /\ eX E2 = eX E1 /\ ey E2 = ey E1 /\ emix E2 = emix E1 /\ efit E2 = efit E1.
Fixpoint one_fit {L} (steps : list (env L * rng)) : Prop :=
  match steps with
  | (E1, _) :: rest => match rest with (E2, _) :: _ => extends E1 E2 | [] => True end /\ one_fit rest
  | [] => True
  end.
(* the fitness depends on error and complexity only *)
Definition size_free {L} (E : env L) : Prop := forall e k j j', efit E e k j = efit E e k j'.
Definition never_nan {L} (E : env L) : Prop := forall e k j, is_nan (efit E e k j) = false.
(* r is the best of l *)
Definition best_of {K} (s : hst K) (l : list nat) (r : nat) (f : num) : Prop :=
  In r l /\ has_fit s r f /\ forall q f', In q l -> has_fit s q f' -> nle f' f = true.
