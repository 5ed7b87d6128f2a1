(* Vocabulary for the course of novelty search: generations of rule objects. *)
From Coq Require Import Permutation Sorting.Sorted.
From Verif Require Import PyNum PyList PyMon PyRng M_Matching S_Matching M_Rule S_Rule M_RuleGen M_Discovery S_Discovery M_Novelty S_Novelty.

(* in every dimension one of the parents' intervals *)
Definition recombines (m a b : matching) : Prop :=
  (mt m = mt a \/ mt m = mt b) /\ (length (bnd m) = length (bnd a) \/ length (bnd m) = length (bnd b)) /\
  forall k v, nth_error (bnd m) k = Some v -> nth_error (bnd a) k = Some v \/ nth_error (bnd b) k = Some v.

Section Breed.
Context {L : learner}.
Implicit Types st : nst L.
Definition rule_at st (i : nat) (r : rule L) : Prop := exists c, nth_error (cells st) i = Some c /\ crule c = r.
Definition same_rules st st' : Prop := forall i r, rule_at st i r -> rule_at st' i r.
(* the object's rule matches a sample *)
Definition matches_at (X : matrix) st (i : nat) : Prop := exists r, rule_at st i r /\ matches_some X r.
(* rule i was crossed from p and q (a mix only with a positive rate), mutated, constrained and fitted *)
Definition child_of (c : nscfg) (X : matrix) (y : targets) st (p q i : nat) : Prop :=
  exists a b r m m' g g', rule_at st p a /\ rule_at st q b /\ rule_at st i r /\
    (m = cond a \/ m = cond b \/ (0 < ns_rate c /\ d_type (ns_d c) = OrderedBound /\ recombines m (cond a) (cond b))) /\
    mutate_rule (ns_mut c) m g = (Ok m', g') /\ cond r = constrain (d_constraint (ns_d c)) m' /\ fitted_on X y r.
(* a matching child of older objects that is not among the first n objects *)
Definition descends (c : nscfg) (X : matrix) (y : targets) (n : nat) st (i : nat) : Prop :=
  (n <= i)%nat /\ matches_at X st i /\ exists p q, (p < i)%nat /\ (q < i)%nat /\ child_of c X y st p q i.
(* the parents, taken two at a time, get two children each; nothing else happens *)
Definition breeds (c : nscfg) X y (pop : list nat) st (parents kids : list nat) st' : Prop :=
  incl parents pop /\ (length parents <= ns_lambda c)%nat /\
  kids = seq (length (cells st)) (2 * Nat.div2 (length parents)) /\ (exists new, cells st' = cells st ++ new /\ length new = length kids) /\ arch st' = arch st /\
  forall k p q, nth_error parents (2 * k) = Some p -> nth_error parents (2 * k + 1) = Some q ->
    child_of c X y st' p q (length (cells st) + 2 * k) /\ child_of c X y st' p q (length (cells st) + 2 * k + 1).
(* best are the n most preferred of those that the novelty calculation keeps; new are the rules that enter the archive *)
Definition most_novel (c : nscfg) (rs : list nat) (n roh : nat) (best new : list nat) st' : Prop :=
  exists kept rest, incl kept rs /\ kept <> [] /\ (NoDup rs -> NoDup kept) /\ Permutation kept (best ++ rest) /\ length best = Nat.min n (length kept) /\
    incl new kept /\ (ns_use_pop c = true -> new = kept) /\
    (ns_use_pop c = false -> length new = match ns_archive c with ANone => 0%nat | _ => Nat.min roh (length kept) end /\ (NoDup rs -> NoDup new)) /\
    ((forall nb fb, ns_calc c <> NBiased nb fb) ->
       StronglySorted (preferred st') best /\ (forall a b, In a best -> In b rest -> preferred st' a b) /\
       (ns_use_pop c = false -> ns_archive c = ANovel -> forall a b, In a new -> In b kept -> ~ In b new -> preferred st' a b)).
(* one generation *)
Definition generation (c : nscfg) X y (pop best : list nat) st (pop' best' : list nat) st' : Prop :=
  exists parents kids s1, breeds c X y pop st parents kids s1 /\
    (((forall i, In i kids -> ~ matches_at X s1 i) /\ pop' = pop /\ best' = best /\ st' = s1) \/
     (exists valid elders new newp s2, valid <> [] /\ NoDup valid /\ (forall i, In i valid <-> In i kids /\ matches_at X s1 i) /\
        most_novel c valid (ns_mu c) (ns_roh c) best' new s2 /\ arch s2 = arch st ++ new /\ same_rules s1 s2 /\
        most_novel c parents (ns_elitists c) 0 elders newp st' /\ arch st' = arch s2 ++ newp /\ same_rules s2 st' /\
        length (cells st') = length (cells s1) /\ pop' = best' ++ elders)).
End Breed.
