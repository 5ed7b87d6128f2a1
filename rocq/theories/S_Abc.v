(* Specification vocabulary for the bee colony. *)
From Verif Require Import PyNum PyList PyMon PyRng M_Matching M_Rule M_Mixing M_Solution S_Solution M_Abc.

(* what the visit of a neighbour does to a source: r is the neighbour *)
Definition greedy (s : hst plain) (r : nat) (f f' : source) : Prop :=
  exists fn fo, has_fit s r fn /\ has_fit s (src f) fo /\
    (nlt fo fn = true -> f' = mkSrc r 0) /\ (nlt fo fn = false -> f' = mkSrc (src f) (S (trials f))).
(* where a bee can get from its own genome with a look at another one *)
Definition neighbour (f : food) (own other bits : list bool) : Prop :=
  length bits = length own /\
  match f with
  | FSigmoid => True                                     (* every genome is within reach *)
  | FBitwise => forall i, nth_error own i = Some false -> nth_error other i = Some false -> nth_error bits i = Some false
  | FDimensionFlips rate => exists dims, NoDup dims /\ Forall (fun i => (i < length own)%nat) dims /\
      (qofnat (length own) * rate <= qofnat (length dims) < qofnat (length own) * rate + 1) /\
      forall i, (In i dims -> nth_error bits i = nth_error other i) /\ (~ In i dims -> nth_error bits i = nth_error own i)
  end.
(* r is a new object, a neighbour of own as seen by a bee that looks at other *)
Definition bred (f : food) (s s' : hst plain) (own other r : nat) : Prop :=
  ~ live s r /\ exists bo ao bt at' b a, shows s own bo ao /\ shows s other bt at' /\ shows s' r b (Some a) /\ neighbour f bo bt b.
(* the objects of s are all in s', unchanged *)
Definition untouched {K} (s s' : hst K) : Prop := forall r bits a, shows s r bits a -> shows s' r bits a.
(* the solution of the source is at least as fit as before *)
Definition not_worse {K} (s : hst K) (r : nat) (s' : hst K) (r' : nat) : Prop :=
  exists f f', has_fit s r f /\ has_fit s' r' f' /\ nle f f' = true.
(* its solution did not get worse, its counter grew by k at most *)
Definition steady (k : nat) (s s' : hst plain) (f f' : source) : Prop := not_worse s (src f) s' (src f') /\ (trials f' <= trials f + k)%nat.
