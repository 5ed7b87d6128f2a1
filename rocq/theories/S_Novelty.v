(* Vocabulary for novelty search. *)
From Coq Require Import Permutation.
From Verif Require Import PyNum PyList PyMon PyRng M_Matching M_Rule M_Discovery S_Discovery M_Novelty.

(* the share of positions in which two match sets differ *)
Definition differing (a b : list bool) : nat := length (filter (fun p => negb (Bool.eqb (fst p) (snd p))) (combine a b)).
Definition distance_is (a b : list bool) (q : Q) : Prop :=
  length a = length b /\ a <> [] /\ q * inject_Z (Z.of_nat (length a)) == inject_Z (Z.of_nat (differing a b)).
(* q is the mean of the n smallest of ds *)
Definition mean_of_smallest (n : nat) (ds : list Q) (q : Q) : Prop :=
  exists near far, Permutation ds (near ++ far) /\ length near = n /\ (forall a b, In a near -> In b far -> a <= b) /\
    q * inject_Z (Z.of_nat n) == qsum near /\ (n = 0%nat -> q == 0).

Section Novelty.
Context {L : learner}.
Implicit Types st : nst L.
Definition matches_are st (i : nat) (ms : list bool) : Prop := exists c t, nth_error (cells st) i = Some c /\ att (crule c) = Some t /\ match_set t = ms.
Definition novelty_is st (i : nat) (s : num) : Prop := exists c, nth_error (cells st) i = Some c /\ cscore c = Some s.
Definition fitness_at st (i : nat) (f : num) : Prop := exists c, nth_error (cells st) i = Some c /\ fitness_is (crule c) f.
(* the object was never compared with others *)
Definition unseen st (i : nat) : Prop := exists c, nth_error (cells st) i = Some c /\ cidx c = None.
(* at least as novel and as fit, and more of one *)
Definition dominates st (i j : nat) : Prop := exists s f s' f', novelty_is st i s /\ fitness_at st i f /\ novelty_is st j s' /\ fitness_at st j f' /\
  nle s' s = true /\ nle f' f = true /\ (nlt s' s = true \/ nlt f' f = true).
(* more novel and fitter *)
Definition beats_in_both st (i j : nat) : Prop := exists s f s' f', novelty_is st i s /\ fitness_at st i f /\ novelty_is st j s' /\ fitness_at st j f' /\
  nlt s' s = true /\ nlt f' f = true.
(* more novel, or as novel and at least as experienced *)
Definition experience_at st (i : nat) (e : Q) : Prop := exists c t, nth_error (cells st) i = Some c /\ att (crule c) = Some t /\ experience t = e.
Definition preferred st (i j : nat) : Prop := exists s e s' e', novelty_is st i s /\ experience_at st i e /\ novelty_is st j s' /\ experience_at st j e' /\
  (nlt s' s = true \/ (neqb s s' = true /\ e' <= e)).
(* a rule object of an earlier search: fitted, with distances_ *)
Definition searched (d : nat) (X : matrix) (y : targets) (c : cell L) : Prop :=
  fitted_on X y (crule c) /\ length (bnd (cond (crule c))) = d /\ exists ds, cdist c = Some ds /\ ds <> [] /\ Forall (fun q => 0 <= q <= 1) ds.
(* a heap the search works on: every object is fitted on the data, distances are in [0,1], everything in the archive has distances *)
Definition ready (d : nat) (X : matrix) (y : targets) st : Prop :=
  Forall (fun c => fitted_on X y (crule c) /\ length (bnd (cond (crule c))) = d /\
                   (cidx c <> None -> cdist c <> None) /\ forall ds, cdist c = Some ds -> ds <> [] /\ Forall (fun q => 0 <= q <= 1) ds) (cells st) /\
  Forall (fun i => exists c ds, nth_error (cells st) i = Some c /\ cdist c = Some ds) (arch st).
Definition live st (i : nat) : Prop := (i < length (cells st))%nat.
End Novelty.
(* parameters that numpy accepts *)
Definition type_ok (t : nstype) : Prop := match t with TBasic => True | TMinimal q => 0 <= q <= 100 | TLocal range => (0 < range)%nat end.
