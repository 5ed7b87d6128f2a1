(* Specification vocabulary for the movements of particles and wolves. *)
From Verif Require Import PyNum PyList PyMon PyRng M_Matching M_Rule M_Mixing M_Solution S_Solution M_Abc M_Swarm.

(* the i-th random number from here on; the generator after k draws *)
Definition number (g : rng) (i : nat) : Q := u01 (tape g (pos g + i)).
Definition later (k : nat) (g : rng) : rng := mkRng (tape g) (pos g + k).
(* coordinate i of a vector *)
Definition is_at (l : list num) (i : nat) (q : Q) : Prop := nth_error l i = Some (Fin q).
(* w is z, cut off at the limits *)
Definition limited (lo hi z w : Q) : Prop := (z <= lo -> w == lo) /\ (lo <= z <= hi -> w == z) /\ (hi <= z -> w == hi).
(* a bit is one with the probability that the sigmoid gives *)
Definition binarised (M : smath) (u x : Q) (bit : bool) : Prop := bit = nle (Fin u) (m_sigmoid M (Fin x)).

(* classical movement: inertia a, pulls b and c towards the particle's own best position and towards the target,
   each with its own random number; velocity and position cut off; the genome drawn from the new position *)
Definition classical (M : smath) (b c vmax a : Q) (target : list num) (n : nat) (g : rng) (p p' : particle) (bits : list bool) : Prop :=
  p_sol p' = p_sol p /\ p_best p' = p_best p /\ p_bestpos p' = p_bestpos p /\
  length (p_pos p') = n /\ length (p_vel p') = n /\ length bits = n /\
  forall i, (i < n)%nat -> exists x v t h x' v' bit,
    is_at (p_pos p) i x /\ is_at (p_vel p) i v /\ is_at (p_bestpos p) i t /\ is_at target i h /\
    is_at (p_vel p') i v' /\ is_at (p_pos p') i x' /\ nth_error bits i = Some bit /\
    limited (- vmax) vmax (a * v + b * number g i * (t - x) + c * number g (n + i) * (h - x)) v' /\
    limited 0 1 (x + v') x' /\ binarised M (number g (n + n + i)) x' bit.

(* log of a number of at least one is a number *)
Definition log_finite (M : smath) : Prop := forall q, 1 <= q -> exists l, m_log M (Fin q) = Fin l.
(* quantum movement: a coin per coordinate chooses between the own position and the target; from there a jump up or down
   (one coin for the particle) by a * |mean - position| * log(1/u) *)
Definition quantum (M : smath) (a : Q) (target : list num) (mean : nat -> Q) (n : nat) (g : rng) (p p' : particle) (bits : list bool) : Prop :=
  p_sol p' = p_sol p /\ p_best p' = p_best p /\ p_bestpos p' = p_bestpos p /\ length (p_pos p') = n /\ length bits = n /\
  exists sign, (index_of 2 (tape g (pos g + (n + n))) = 0%nat /\ sign = -(1) \/ index_of 2 (tape g (pos g + (n + n))) = 1%nat /\ sign = 1) /\
  forall i, (i < n)%nat -> ~ number g (n + i) == 0 -> exists x h l x' bit,
    is_at (p_pos p) i x /\ is_at target i h /\ is_at (p_pos p') i x' /\ nth_error bits i = Some bit /\
    m_log M (Fin (1 / number g (n + i))) = Fin l /\
    limited 0 1 ((if qle (number g i) (1 # 2) then x else h) + sign * (a * Qabs (mean i - x) * l)) x' /\
    binarised M (number g (n + n + 1 + i)) x' bit.
(* coordinate i of the mean position *)
Definition mean_at (ps : list particle) (i : nat) : Q :=
  qsum (map (fun p => match nth_error (p_pos p) i with Some (Fin q) => q | _ => 0 end) ps) / qofnat (length ps).

(* none of the others is fitter at the moment *)
Definition leads (s : hst plain) (p : particle) (ps : list particle) : Prop :=
  In p ps /\ exists f, has_fit s (p_sol p) f /\ forall q fq, In q ps -> has_fit s (p_sol q) fq -> nle fq f = true.
Definition rated (s : hst plain) (r : nat) : Prop := exists f, has_fit s r f /\ is_nan f = false.

(* a bit as a number *)
Definition one_or_zero (b : bool) : Q := if b then 1 else 0.
(* A of the grey wolves, between -a and a; D, the distance to the prey *)
Definition drift (a u : Q) : Q := 2 * a * u - a.
Definition away (u prey wolf : Q) : Q := Qabs (2 * u * prey - wolf).
(* crossover: each leader proposes a bit, one where the leader has a one and otherwise drawn through the sigmoid; one leader is drawn for each position *)
Definition proposal (M : smath) (a : Q) (n : nat) (g : rng) (i : nat) (leader wolf bit : bool) : Prop :=
  exists drawn, binarised M (number g (n + n + i)) (drift a (number g i) * away (number g (n + i)) (one_or_zero leader) (one_or_zero wolf)) drawn /\
    (bit = true <-> leader = true \/ drawn = true \/ number g (n + n + n + i) == 0).
Definition crossed (M : smath) (a : Q) (leaders : list (list bool)) (wolf : list bool) (g : rng) (bits : list bool) : Prop :=
  length bits = length wolf /\
  forall i w, nth_error wolf i = Some w -> exists j leader l bit,
    j = index_of (length leaders) (tape g (pos g + (4 * length wolf * length leaders + i))) /\
    nth_error leaders j = Some leader /\ nth_error leader i = Some l /\ nth_error bits i = Some bit /\
    proposal M a (length wolf) (later (4 * length wolf * j) g) i l w bit.
(* sigmoid: the mean over the leaders of |leader - A * D|, binarised *)
Definition estimate (a : Q) (n : nat) (g : rng) (i : nat) (leader wolf : bool) : Q :=
  Qabs (one_or_zero leader - drift a (number g i) * away (number g (n + i)) (one_or_zero leader) (one_or_zero wolf)).
Definition averaged (M : smath) (a : Q) (leaders : list (list bool)) (wolf : list bool) (g : rng) (bits : list bool) : Prop :=
  length bits = length wolf /\
  forall i w, nth_error wolf i = Some w -> exists bit x, nth_error bits i = Some bit /\
    x == qsum (mapi (fun j leader => estimate a (length wolf) (later (2 * length wolf * j) g) i (nth i leader false) w) leaders) / qofnat (length leaders) /\
    binarised M (number g (2 * length wolf * length leaders + i)) x bit.
Definition hunts (p : position) : smath -> Q -> list (list bool) -> list bool -> rng -> list bool -> Prop :=
  match p with WCrossover => crossed | WSigmoid => averaged end.
(* how many random numbers a wolf needs *)
Definition needs (p : position) (leaders n : nat) : nat :=
  match p with WCrossover => 4 * n * leaders + n | WSigmoid => 2 * n * leaders + n end.
