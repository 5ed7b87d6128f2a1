(* Vocabulary for rule discovery: what an acceptable rule is, what the evolution strategy went through. *)
From Verif Require Import PyNum PyList PyMon PyRng M_Matching S_Matching M_Rule S_Rule M_Discovery.

(* every sample has d features and a target *)
Definition table (d : nat) (X : matrix) (y : targets) : Prop := Forall (fun x => length x = d) X /\ length y = length X.
(* the input space of a clipping constraint has d features *)
Definition space_dim (d : nat) (c : constraint) : Prop :=
  match c with Clip s | CombinedConstraint _ s => length s = d | MinRange _ => True end.
(* beta is not zero; the error has a bound *)
Definition usable (a : acceptance) : Prop := match a with Variance b => ~ b == 0 | MaxError m => m <> PInf end.
Definition mean_square (ys : list Q) : Q := qsum (map (fun v => v * v) ys) / inject_Z (Z.of_nat (length ys)).

Section Discovery.
Variable L : learner.
Implicit Types r : rule L.

(* the error of the rule is finite and small enough *)
Definition passes (a : acceptance) (y : targets) r : Prop :=
  exists t e, att r = Some t /\ error t = Fin e /\
    match a with
    | MaxError m => nle (Fin e) m = true
    | Variance beta => e <= mean_square (compress y (match_set t)) / beta
    end.
Definition matches_some (X : matrix) r : Prop := exists x, In x X /\ covers (cond r) x.
(* the attributes of the rule are those of its own condition on these data *)
Definition fitted_on (X : matrix) (y : targets) r : Prop := truthful L (cond r) X y r.
Definition fitness_is r (f : num) : Prop := exists t, att r = Some t /\ fitness t = f.
Definition at_least_as_fit (a b : rule L) : Prop := exists f h, fitness_is a f /\ fitness_is b h /\ nle h f = true.
(* smaller error and larger volume *)
Definition better_in_both (a b : rule L) : Prop :=
  exists s t, att a = Some s /\ att b = Some t /\ nlt (error s) (error t) = true /\ volume (cond b) < volume (cond a).

(* ----- evolution strategy: one entry per generation, the parent and its children ----- *)
Definition generation : Type := rule L * list (rule L).
Definition productive (X : matrix) (h : generation) : Prop := exists k, In k (snd h) /\ matches_some X k.
(* the children of each generation are mutants of its parent, drawn one generation after the other *)
Fixpoint bred (c : escfg) (D : denv L) (gens : list generation) (g g' : rng) : Prop :=
  match gens with
  | [] => g' = g
  | (p, ks) :: gens' => exists g1, repeat_m (es_lambda c) (mutant (es_d c) (es_mut c) D p) g = (Ok ks, g1) /\ bred c D gens' g1 g'
  end.
(* each parent is the one before it or one of the children of the one before it; r comes last *)
Fixpoint lineage (e : rule L) (gens : list generation) (r : rule L) : Prop :=
  match gens with
  | [] => r = e
  | (p, ks) :: gens' => p = e /\ exists q, In q (p :: ks) /\ lineage q gens' r
  end.
Definition window (k : nat) (gens : list generation) : list (rule L) := skipn (length gens - k) (map fst gens).
(* the initial rule if no generation had a child matching anything, else the best child of the last one that had *)
Definition best_of_last (X : matrix) (e : rule L) (gens : list generation) (r : rule L) : Prop :=
  (Forall (fun h => ~ productive X h) gens /\ r = e) \/
  exists before h after, gens = before ++ h :: after /\ productive X h /\ Forall (fun h' => ~ productive X h') after /\
    In r (snd h) /\ Forall (at_least_as_fit r) (snd h).
End Discovery.
Arguments passes {L}. Arguments matches_some {L}. Arguments fitted_on {L}. Arguments at_least_as_fit {L}. Arguments fitness_is {L}.
Arguments better_in_both {L}. Arguments generation L : assert. Arguments productive {L}. Arguments bred {L}. Arguments lineage {L}. Arguments window {L}. Arguments best_of_last {L}.

(* ----- origins ----- *)
(* the rules an origin looks at: those of the elitist, or the pool *)
Definition considered {L} (D : denv L) (use_elitist : bool) (rs : list (rule L)) : Prop :=
  match delite D with
  | Some bits => if use_elitist then length bits = length (dpool D) /\ rs = compress (dpool D) bits else rs = dpool D
  | None => rs = dpool D
  end.
(* k of the rules do not cover the sample *)
Inductive missed {L} (x : row) : list (rule L) -> nat -> Prop :=
| missed_nil : missed x [] 0
| missed_hit r rs k : covers (cond r) x -> missed x rs k -> missed x (r :: rs) k
| missed_miss r rs k : ~ covers (cond r) x -> missed x rs k -> missed x (r :: rs) (S k).
Definition distribution (p : list Q) : Prop := Forall (fun q => 0 <= q) p /\ qsum p == 1.
