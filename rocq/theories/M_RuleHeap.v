(* Conditions as objects: a rule's condition holds a reference to a bounds array, the operators write
   into arrays.  Addresses are positions in the list of all arrays allocated so far. *)
From Verif Require Import PyNum PyList PyMon PyRng M_Matching M_RuleGen.

Definition bheap := list bounds.
Record mref : Type := mkRef { rt : mtype; ra : nat }.      (* a MatchingFunction object: class, self.bounds *)
Record bstate : Type := mkB { arrays : bheap; brng : rng }.
Definition BSt (A : Type) := St bstate A.

Definition balloc (bs : bounds) : BSt nat :=
  fun s => (Ok (length (arrays s)), mkB (arrays s ++ [bs]) (brng s)).
Definition bread (a : nat) : BSt bounds :=
  fun s => (of_option Dangling (nth_error (arrays s) a), s).
Definition bwrite (a : nat) (bs : bounds) : BSt unit :=
  fun s => (Ok tt, mkB (update (arrays s) a bs) (brng s)).
Definition with_rng {A} (f : rng -> res A * rng) : BSt A :=
  fun s => let '(r, g) := f (brng s) in (r, mkB (arrays s) g).

(* rule/base.py:97-104 clone: match.copy() = a new condition around bounds.copy()
   (matching.py:66-67, 104-105, 158-159, 200-201) *)
Definition clone_h (r : mref) : BSt mref :=
  let* bs := bread (ra r) in let* a := balloc bs in ret (mkRef (rt r) a).

(* mutation.py:23-30: clone, then execute on the clone: the noise is written into the clone's array
   (in one write: partial writes before a failing draw hit only the clone, which is then dropped);
   ordered_bound methods finally rebind match.bounds to a new sorted array *)
Definition mutate_h (mu : mutation) (r : mref) : BSt mref :=
  let* c := clone_h r in
  let* bs := bread (ra c) in
  let* bs' := with_rng (noise_bounds mu (rt c) bs) in
  bwrite (ra c) bs' ;;
  match rt c with
  | OrderedBound => let* w := bread (ra c) in let* a := balloc (map sort_row w) in ret (mkRef (rt c) a)
  | _ => ret c
  end.

(* constraint.py: the methods write into self.bounds of the rule handed in, and return that rule.
   matching.py:69-78, 107-125, 161-169, 203-213 *)
Definition constrain_h (c : constraint) (r : mref) : BSt mref :=
  match c with
  | Clip space => let* bs := bread (ra r) in bwrite (ra r) (bnd (clip (mkMatching (rt r) bs) space)) ;; ret r
  | MinRange mr => let* bs := bread (ra r) in bwrite (ra r) (bnd (min_range (mkMatching (rt r) bs) mr)) ;; ret r
  | CombinedConstraint mr space =>
      let* bs := bread (ra r) in bwrite (ra r) (bnd (min_range (mkMatching (rt r) bs) mr)) ;;
      let* bs1 := bread (ra r) in bwrite (ra r) (bnd (clip (mkMatching (rt r) bs1) space)) ;; ret r
  end.

(* optimizer/rule/crossover.py:15-39: deepcopy of both rules and of both arrays, then new arrays *)
Definition crossover_h (rate : Q) (a b : mref) : BSt (mref * mref) :=
  let* u := with_rng (fun g => let '(u, g') := random g in (Ok u, g')) in
  if qlt u rate then
    match rt a with
    | OrderedBound =>
        let* ca := clone_h a in let* cb := clone_h b in
        let* ba := bread (ra a) in let* bb := bread (ra b) in
        let* qs := with_rng (fun g => let '(qs, g') := draws (length ba) g in (Ok qs, g')) in
        let pick := map2 (fun (m : bool) (xy : (Q * Q) * (Q * Q)) => if m then fst xy else snd xy) (map bool_of qs) in
        let* na := balloc (pick (combine ba bb)) in
        let* nb := balloc (pick (combine bb ba)) in
        ret (mkRef (rt ca) na, mkRef (rt cb) nb)
    | _ => raise TypeError
    end
  else ret (a, b).

(* optimizer/rule/es/es.py:107-110: the offspring of one generation: mutate the parent, then constrain *)
Definition offspring_h (c : constraint) (mu : mutation) (r : mref) : BSt mref :=
  let* o := mutate_h mu r in constrain_h c o.
