(* What a composition step that starts afresh may not depend on. *)
From Verif Require Import PyNum PyList PyMon PyRng M_Matching M_Rule M_Mixing M_Solution M_Composition.

(* all there is to see of a solution: its genome, its measured values, its further attributes *)
Definition view {K} (s : hst K) (r : nat) : option (list bool * option satts * ext K) :=
  match nth_error (sols s) r with
  | Some o => match nth_error (garr s) (gref o) with Some bits => Some (bits, satt o, sext o) | None => None end
  | None => None
  end.
(* two steps that end with the same solutions, attributes of the optimizer in the relation R and the same state of the generator, or with the same exception *)
Definition same_step {K} {O : optimizer K} (R : ostate O -> ostate O -> Prop) (x x' : res (comp O) * hst K) : Prop :=
  match x, x' with
  | (Ok a, t), (Ok a', t') => map (view t) (cpop a) = map (view t') (cpop a') /\ R (cint a) (cint a') /\ hrng t = hrng t'
  | (Raise e, t), (Raise e', t') => e = e' /\ hrng t = hrng t'
  | _, _ => False
  end.
Definition same_best {K} (x x' : res (option nat) * hst K) : Prop :=
  match x, x' with
  | (Ok (Some r), t), (Ok (Some r'), t') => view t r = view t' r'
  | (Ok None, _), (Ok None, _) => True
  | (Raise e, _), (Raise e', _) => e = e'
  | _, _ => False
  end.
(* without warm start and archive, earlier steps have an influence through the optimizer's own attributes only *)
Definition starts_afresh {K} (O : optimizer K) : Prop := forall L (E : env L) c q (st st' : comp O) s s',
  cwarm c = false -> carchive c = false -> cint st = cint st' ->
  same_step eq (optimize O c E q st s) (optimize O c E q st' s') /\
  same_best ((let* z := optimize O c E q st in elitist z) s) ((let* z := optimize O c E q st' in elitist z) s').
(* earlier steps have no influence at all *)
Definition forgets {K} (O : optimizer K) : Prop := forall L (E : env L) c q (st st' : comp O) s s',
  cwarm c = false -> carchive c = false ->
  same_step (fun _ _ => True) (optimize O c E q st s) (optimize O c E q st' s') /\
  same_best ((let* z := optimize O c E q st in elitist z) s) ((let* z := optimize O c E q st' in elitist z) s').
(* the genomes that a history ends with *)
Definition genomes_after {K L} (O : optimizer K) (i : ostate O) (c : ccfg) (q : rng) (steps : list (env L * rng)) : option (list (option (list bool))) :=
  match compose O c steps (fresh_comp O i) (mkH [] [] q) with
  | (Ok a, t) => Some (map (fun r => match view t r with Some (bits, _, _) => Some bits | None => None end) (cpop a))
  | _ => None
  end.
(* two histories with the same last step, that differ in the steps before, end with other genomes *)
Definition remembers {K} (O : optimizer K) (i : ostate O) (c : ccfg) : Prop :=
  exists L (steps : list (env L * rng)) last q l l', genomes_after O i c q (steps ++ [last]) = Some l /\ genomes_after O i c q [last] = Some l' /\ l <> l'.
(* with an archive, which holds one solution at most, earlier steps have an influence through this solution and the optimizer's attributes only; the archive that is left is the same too *)
Definition same_archive {K} {O : optimizer K} (x x' : res (comp O) * hst K) : Prop :=
  match x, x' with
  | (Ok a, t), (Ok a', t') => map (view t) (carch a) = map (view t') (carch a')
  | _, _ => True
  end.
Definition archive_only {K} (O : optimizer K) (R : ostate O -> ostate O -> Prop) : Prop := forall L (E : env L) c q (st st' : comp O) s s',
  cwarm c = false -> (length (carch st) <= 1)%nat -> Forall (fun r => view s r <> None) (carch st) -> map (view s) (carch st) = map (view s') (carch st') -> R (cint st) (cint st') ->
  same_step R (optimize O c E q st s) (optimize O c E q st' s') /\ same_archive (optimize O c E q st s) (optimize O c E q st' s') /\
  same_best ((let* z := optimize O c E q st in elitist z) s) ((let* z := optimize O c E q st' in elitist z) s').
(* what there is to see of the elitist after a history *)
Definition best_after {K L} (O : optimizer K) (i : ostate O) (c : ccfg) (q : rng) (steps : list (env L * rng)) : option (list bool * option satts * ext K) :=
  match (let* z := compose O c steps (fresh_comp O i) in elitist z) (mkH [] [] q) with
  | (Ok (Some r), t) => view t r
  | _ => None
  end.
(* a list of pairs that matches each first with one second and each second with one first *)
Definition one_one (P : list (nat * nat)) : Prop := forall a a' b b', In (a, a') P -> In (b, b') P -> (a = b <-> a' = b').
(* two lists of solutions on two heaps that look the same: addresses aside, the same objects at the same places, sharing arrays in the same way, with the same contents *)
Definition same_picture {K} (s s' : hst K) (rs rs' : list nat) : Prop := exists P Q, one_one P /\ one_one Q /\ Forall2 (fun r r' => In (r, r') P) rs rs' /\
  (forall r r', In (r, r') P -> exists o o', nth_error (sols s) r = Some o /\ nth_error (sols s') r' = Some o' /\ In (gref o, gref o') Q /\ satt o = satt o' /\ sext o = sext o') /\
  (forall a a', In (a, a') Q -> exists bits, nth_error (garr s) a = Some bits /\ nth_error (garr s') a' = Some bits).
(* a step sees population and archive, the optimizer's attributes, and nothing else of the heap; what it leaves looks the same again *)
Definition sees_picture {K} (O : optimizer K) : Prop := forall L (E : env L) c q (st st' : comp O) s s',
  same_picture s s' (cpop st ++ carch st) (cpop st' ++ carch st') -> length (cpop st) = length (cpop st') -> cint st = cint st' ->
  match optimize O c E q st s, optimize O c E q st' s' with
  | (Ok a, t), (Ok a', t') => (Forall (fun r => view t r <> None) (cpop a ++ carch a) -> same_picture t t' (cpop a ++ carch a) (cpop a' ++ carch a')) /\ length (cpop a) = length (cpop a') /\ cint a = cint a' /\ hrng t = hrng t'
  | (Raise e, t), (Raise e', t') => e = e' /\ hrng t = hrng t'
  | _, _ => False
  end /\
  same_best ((let* z := optimize O c E q st in elitist z) s) ((let* z := optimize O c E q st' in elitist z) s').
(* the genomes of the population a step ends with *)
Definition end_genomes {K} (O : optimizer K) (x : res (comp O) * hst K) : option (list (option (list bool))) :=
  match x with (Ok a, t) => Some (map (fun r => option_map (fun v => fst (fst v)) (view t r)) (cpop a)) | _ => None end.
(* the same for any number of steps *)
Definition sees_picture_always {K} (O : optimizer K) : Prop := forall L (steps : list (env L * rng)) c (st st' : comp O) s s',
  same_picture s s' (cpop st ++ carch st) (cpop st' ++ carch st') -> length (cpop st) = length (cpop st') -> cint st = cint st' -> hrng s = hrng s' ->
  same_step eq (compose O c steps st s) (compose O c steps st' s') /\ same_archive (compose O c steps st s) (compose O c steps st' s') /\
  same_best ((let* z := compose O c steps st in elitist z) s) ((let* z := compose O c steps st' in elitist z) s').
