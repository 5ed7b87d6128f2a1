(* Specification vocabulary for the moves of the bees. *)
From Verif Require Import PyNum PyList PyMon PyRng M_Matching M_Rule M_Mixing M_Solution S_Solution M_Composition S_Composition S_GenomeOps M_Abc S_Abc S_Moves.

Definition bit_value (b : bool) : Q := if b then 1 else 0.
(* the traditional update: away from the other source or towards it by a factor between -1 and 1, drawn for each bit; the new bit is drawn from the sigmoid *)
Definition drifted (M : smath) (g : rng) (own other bits : list bool) : Prop :=
  length bits = length own /\
  forall i a b, nth_error own i = Some a -> nth_error other i = Some b -> exists x bit, nth_error bits i = Some bit /\
    x == bit_value a + (2 * number g i - 1) * (bit_value a - bit_value b) /\ binarised M (number g (length own + i)) x bit.
(* bit by bit: where one of the sources has the rule, a coin decides whether the own bit is turned *)
Definition coin (g : rng) (i : nat) : bool := Nat.eqb (index_of 2 (tape g (pos g + i))) 1.
Definition toggled (g : rng) (own other bits : list bool) : Prop :=
  length bits = length own /\
  forall i a b, nth_error own i = Some a -> nth_error other i = Some b ->
    nth_error bits i = Some (if coin g i && (a || b) then negb a else a).
(* these bits from the other source, all others from the own one *)
Definition patched (dims : list nat) (own other bits : list bool) : Prop :=
  length bits = length own /\
  forall i, (In i dims -> nth_error bits i = nth_error other i) /\ (~ In i dims -> nth_error bits i = nth_error own i).
(* k different positions of n *)
Definition choice_of (n : nat) (k : Z) (dims : list nat) : Prop := NoDup dims /\ Forall (fun i => (i < n)%nat) dims /\ Z.of_nat (length dims) = k.
(* the smallest integer of at least q *)
Definition rounded_up (q : Q) (k : Z) : Prop := q <= inject_Z k /\ inject_Z k < q + 1.

(* the j-th partner of the employed bees: any source, equally likely *)
Definition any_partner (g : rng) (fs : list source) (j p : nat) : Prop :=
  exists f, nth_error fs (index_of (length fs) (tape g (pos g + j))) = Some f /\ p = src f.
(* of the onlookers: the fitness of a source divided by the sum is its share of the wheel *)
Definition wheel_partner (g : rng) (qs : list Q) (fs : list source) (j p : nat) : Prop :=
  exists w i f, Forall2 (fun q x => x == q / qsum qs) qs w /\ picks w (number g j) i /\ nth_error fs i = Some f /\ p = src f.
(* finite, none of them on the other side of zero, and not all zero *)
Definition one_sign (qs : list Q) : Prop := (0 < qsum qs /\ Forall (fun q => 0 <= q) qs) \/ (qsum qs < 0 /\ Forall (fun q => q <= 0) qs).
(* every source with a partner meets one new neighbour, and the fitter of the two stays *)
Definition visited {L} (E : env L) (f : food) (partners : list nat) (s s' : hst plain) (fs fs' : list source) : Prop :=
  untouched s s' /\ length fs' = length fs /\
  forall i x, nth_error fs i = Some x -> exists x', nth_error fs' i = Some x' /\
    match nth_error partners i with
    | None => x' = x
    | Some o => exists r, bred f s s' (src x) o r /\ honest E s' r /\ greedy s' r x x'
    end.
(* exactly the sources whose counter has reached the limit are given up for new ones *)
Definition scouted_all {L} (E : env L) (limit : nat) (s s' : hst plain) (fs fs' : list source) : Prop :=
  untouched s s' /\ length fs' = length fs /\ Forall (honest E s') (map src fs') /\
  forall i x, nth_error fs i = Some x -> exists x', nth_error fs' i = Some x' /\
    ((trials x < limit)%nat /\ x' = x \/ (limit <= trials x)%nat /\ trials x' = 0%nat /\ ~ live s (src x')).
