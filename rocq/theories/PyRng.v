(* numpy.random.Generator as an infinite tape of rationals with a read position.
   Every draw is a deterministic function of tape entries that is onto the support of the
   distribution, so "for all tapes" covers all outcomes.  Distributions are not modelled. *)
From Verif Require Import PyNum PyList PyMon.

Record rng : Type := mkRng { tape : nat -> Q; pos : nat }.

Definition draw (g : rng) : Q * rng := (tape g (pos g), mkRng (tape g) (S (pos g))).
Fixpoint draws (n : nat) (g : rng) : list Q * rng :=
  match n with
  | O => ([], g)
  | S n' => let '(q, g1) := draw g in
            let '(qs, g2) := draws n' g1 in (q :: qs, g2)
  end.

(* transforms of raw tape entries *)
Definition u01 (q : Q) : Q := q - inject_Z (Qfloor q).              (* in [0,1) *)
Definition uniform_of (lo hi q : Q) : Q := lo + (hi - lo) * u01 q.   (* Generator.uniform *)
Definition normal_of (loc scale q : Q) : Q := loc + scale * q.       (* Generator.normal *)
Definition halfnorm_of (scale q : Q) : Q := scale * Qabs q.          (* scipy halfnorm.rvs *)
Definition index_of (n : nat) (q : Q) : nat :=                      (* Generator.integers(n), n > 0 *)
  Z.to_nat (Z.modulo (Qfloor q) (Z.of_nat n)).

Definition random (g : rng) : Q * rng := let '(q, g') := draw g in (u01 q, g').
Definition randoms (n : nat) (g : rng) : list Q * rng :=
  let '(qs, g') := draws n g in (map u01 qs, g').

(* choice(l, size=k): k elements with replacement; ValueError on an empty list *)
Definition choices {A} (l : list A) (k : nat) (g : rng) : res (list A) * rng :=
  match l with
  | [] => (if Nat.eqb k 0 then Ok [] else Raise ValueError, g)
  | x :: _ => let '(qs, g') := draws k g in
              (Ok (map (fun q => nth (index_of (length l) q) l x) qs), g')
  end.
(* choice(l): one element *)
Definition choice1 {A} (l : list A) (g : rng) : res A * rng :=
  match l with
  | [] => (Raise ValueError, g)
  | x :: _ => let '(q, g') := draw g in (Ok (nth (index_of (length l) q) l x), g')
  end.

(* choice(l, size=k, replace=False) / shuffle: repeatedly take out one of the remaining elements *)
Fixpoint remove_nth {A} (i : nat) (l : list A) : list A :=
  match l, i with
  | [], _ => []
  | _ :: l', O => l'
  | x :: l', S i' => x :: remove_nth i' l'
  end.
Fixpoint take_out {A} (k : nat) (l : list A) (g : rng) : list A * rng :=
  match k with
  | O => ([], g)
  | S k' =>
    match l with
    | [] => ([], g)
    | x :: _ => let '(q, g1) := draw g in
                let i := index_of (length l) q in
                let '(rest, g2) := take_out k' (remove_nth i l) g1 in
                (nth i l x :: rest, g2)
    end
  end.
Definition sample {A} (l : list A) (k : nat) (g : rng) : res (list A) * rng :=
  if Nat.ltb (length l) k then (Raise ValueError, g)
  else let '(r, g') := take_out k l g in (Ok r, g').
Definition shuffle {A} (l : list A) (g : rng) : list A * rng := take_out (length l) l g.

(* choice(l, size=k, p=w): numpy checks that the weights are non-negative and sum to one, then
   inverts the cumulative sum (cdf.searchsorted(u, side="right")). *)
Fixpoint search_cdf (w : list Q) (acc u : Q) (i : nat) : nat :=
  match w with
  | [] => i
  | p :: w' => if qlt u (acc + p) then i else search_cdf w' (acc + p) u (S i)
  end.
Definition weights_ok (w : list Q) : bool := forallb (qle 0) w && qeq (qsum w) 1.
Definition choices_p {A} (l : list A) (k : nat) (w : list Q) (g : rng) : res (list A) * rng :=
  if negb (Nat.eqb (length w) (length l)) || negb (weights_ok w) then (Raise ValueError, g)
  else match l with
       | [] => (Raise ValueError, g)
       | x :: _ => let '(qs, g') := draws k g in
                   (Ok (map (fun q => nth (search_cdf w 0 (u01 q) 0) l x) qs), g')
       end.
