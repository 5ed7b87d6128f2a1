(* Novelty search: suprb/optimizer/rule/ns/{ns,novelty_calculation,novelty_search_type,archive}.py and rule/crossover.py.
   The search writes novelty_score_, distances_ and idx_ onto rule objects that populations, parents and the archive share and
   may hold several times, so rules live in a heap here; addresses are object identities.
   Simplifications: hamming of empty match sets is not modelled; counts and ranges are natural numbers. *)
From Verif Require Import PyNum PyList PyMon PyRng PyStat M_Matching M_Rule M_RuleGen M_Mixing M_GenomeOps M_Discovery.

(* scipy.spatial.distance.hamming *)
Definition hamming (a b : list bool) : res Q :=
  if negb (Nat.eqb (length a) (length b)) then Raise ValueError
  else match a with [] => Raise NotModelled | _ => Ok (qofnat (count_true (map2 xorb a b)) / qofnat (length a)) end.
(* np.percentile(l, q), linear interpolation; IndexError for an empty list *)
Definition percentile (l : list Q) (q : Q) : res Q :=
  if qlt q 0 || qlt 100 q then Raise ValueError
  else match l with
       | [] => Raise IndexError
       | x :: _ =>
           let s := PyList.sort qlt l in
           let last := (length l - 1)%nat in
           let v := q / 100 * qofnat last in
           let i := Z.to_nat (Qfloor v) in
           let lo := nth i s x in
           Ok (lo + (nth (Nat.min (S i) last) s x - lo) * u01 v)
       end.
(* novelty_calculation.py:52-59: mean of the k smallest distances (np.partition); distances_ holds a 0 for the rule itself *)
Definition mean_nearest (k : nat) (ds : list Q) : Q :=
  let n := Nat.min k (length ds - 1) in
  if Nat.eqb n 0 then 0 else qsum (firstn n (PyList.sort qlt ds)) / qofnat n.
(* sorted(..., key=lambda r: (a, b), reverse=True) *)
Definition lex_lt {B} (ltb : B -> B -> bool) (a b : num * B) : bool := nlt (fst a) (fst b) || (neqb (fst a) (fst b) && ltb (snd a) (snd b)).

(* novelty_search_type.py; novelty_calculation.py; archive.py *)
Inductive nstype : Type := TBasic | TMinimal (q : Q) | TLocal (range : nat).
Inductive ncalc : Type := NBasic | NProgressive | NPareto | NBiased (novelty_bias fitness_bias : Q).
Inductive archive_kind : Type := ANovel | ARandom | ANone.
Record nscfg : Type := mkNs { ns_d : dcfg; ns_iter : nat; ns_mu : nat; ns_lambda : nat; ns_roh : nat; ns_elitists : nat; ns_use_pop : bool;
  ns_rate : Q; ns_mut : rmutation; ns_sel : rselection; ns_calc : ncalc; ns_type : nstype; ns_archive : archive_kind; ns_k : nat }.
(* ns.py:96-98, in the constructor *)
Definition ns_new (c : nscfg) : res nscfg := let? _ := assert_ (Nat.ltb (ns_k c + 2) (ns_lambda c)) in Ok c.

Section Novelty.
Variable L : learner.
(* a rule object with the attributes the search adds *)
Record cell : Type := mkCell { crule : rule L; cdist : option (list Q); cidx : option nat; cscore : option num }.
(* heap, archive.archive and the generator *)
Record nst : Type := mkNst { cells : list cell; arch : list nat; gen : rng }.

Definition on_rng {A} (m : St rng A) : St nst A :=
  fun s => let '(r, g) := m (gen s) in (r, mkNst (cells s) (arch s) g).
Definition cell_of (i : nat) : St nst cell := fun s => (of_option Dangling (nth_error (cells s) i), s).
Definition set_cell (i : nat) (c : cell) : St nst unit := fun s => (Ok tt, mkNst (update (cells s) i c) (arch s) (gen s)).
Definition alloc (r : rule L) : St nst nat :=
  fun s => (Ok (length (cells s)), mkNst (cells s ++ [mkCell r None None None]) (arch s) (gen s)).
Definition get_archive : St nst (list nat) := fun s => (Ok (arch s), s).
(* archive.archive.extend *)
Definition extend_archive (l : list nat) : St nst unit := fun s => (Ok tt, mkNst (cells s) (arch s ++ l) (gen s)).
(* rule.distances_.append(q) *)
Definition push_dist (i : nat) (q : Q) : St nst unit :=
  let* c := cell_of i in
  match cdist c with
  | None => raise AttributeError
  | Some ds => set_cell i (mkCell (crule c) (Some (ds ++ [q])) (cidx c) (cscore c))
  end.
Definition matches_of (i : nat) : St nst (list bool) :=
  let* c := cell_of i in let* t := lift (get_att L (crule c)) in ret (match_set t).
Definition fitness_of (i : nat) : St nst num :=
  let* c := cell_of i in let* t := lift (get_att L (crule c)) in ret (fitness t).
Definition experience_of (i : nat) : St nst Q :=
  let* c := cell_of i in let* t := lift (get_att L (crule c)) in ret (experience t).
Definition score_of (i : nat) : St nst num :=
  let* c := cell_of i in lift (of_option AttributeError (cscore c)).

(* novelty_search_type.py:9-10, 22-33 *)
Definition enough (thr : Q) (p : nat * Q) : bool := qle thr (snd p).
Definition filter_rules (t : nstype) (rs : list nat) : St nst (list nat) :=
  match t with
  | TMinimal q =>
      let* counts := mmap (fun i => let* ms := matches_of i in ret (qofnat (count_true ms))) rs in
      let* p := lift (percentile counts q) in
      let thr := if qlt 25 p then 25 else p in
      ret (map fst (filter (enough thr) (combine rs counts)))
  | _ => ret rs
  end.
(* 12-13, 42-49 *)
Definition local_competition (t : nstype) (i : nat) (local : list nat) : St nst Q :=
  match t with
  | TLocal range =>
      let* f := fitness_of i in
      let* fs := mmap fitness_of (firstn range local) in
      if Nat.eqb range 0 then raise ZeroDivisionError
      else ret (qofnat (count_true (map (fun h => nlt f h) fs)) / qofnat range)
  | _ => ret 0
  end.

(* novelty_calculation.py:32-43: every rule that was not compared before, or whose idx_ lies beyond the archive, is compared with
   all rules of the local archive *)
Definition compare_with (i j : nat) : St nst unit :=
  let* a := matches_of i in let* b := matches_of j in
  let* h := lift (hamming a b) in push_dist j h ;; push_dist i h.
Definition needs_distances (c : cell) (n : nat) : bool := match cidx c with None => true | Some k => Nat.ltb n k end.
Fixpoint mark (local : list nat) (rs : list nat) : St nst (list nat) :=
  match rs with
  | [] => ret local
  | i :: rs' =>
      let* c := cell_of i in
      (if needs_distances c (length local)
       then set_cell i (mkCell (crule c) (Some []) (cidx c) (cscore c)) ;;
            miter (compare_with i) local ;;
            push_dist i 0 ;;
            let* c' := cell_of i in set_cell i (mkCell (crule c') (cdist c') (Some (length local)) (cscore c'))
       else ret tt) ;;
      mark (local ++ [i]) rs'
  end.
(* 52-59, 112-117 *)
Definition base_score (b : ncalc) (k : nat) (i : nat) : St nst num :=
  let* c := cell_of i in
  let* ds := lift (of_option AttributeError (cdist c)) in
  (match ds with [] => raise ValueError | _ => ret tt end) ;;                        (* np.partition([], -1) *)
  match b with
  | NBiased nb fb => let* f := fitness_of i in ret (nadd (nmul (Fin nb) (Fin (mean_nearest k ds))) (nmul (Fin fb) (ndiv f (Fin 100))))
  | _ => ret (Fin (mean_nearest k ds))
  end.
(* 45-48 *)
Definition score_rule (b : ncalc) (t : nstype) (k : nat) (local : list nat) (i : nat) : St nst unit :=
  let* lc := local_competition t i local in
  let* s := base_score b k i in
  let* c := cell_of i in set_cell i (mkCell (crule c) (cdist c) (cidx c) (Some (nadd (Fin lc) s))).
(* 23-50 *)
Definition novelty_score (b : ncalc) (t : nstype) (k : nat) (rs : list nat) : St nst (list nat) :=
  let* a := get_archive in
  let* fl := filter_rules t rs in
  let* local := mark a fl in
  miter (score_rule b t k local) fl ;; ret fl.
(* 82-91 *)
Fixpoint front (last : num) (l : list (nat * (num * num))) : list (nat * (num * num)) :=
  match l with
  | [] => []
  | p :: l' => if nle last (snd (snd p)) then p :: front (snd (snd p)) l' else front last l'
  end.
Definition with_key {B} (key : nat -> St nst B) (rs : list nat) : St nst (list (nat * B)) :=
  mmap (fun i => let* k := key i in ret (i, k)) rs.
Definition by_key {B} (lt : B -> B -> bool) (l : list (nat * B)) : list (nat * B) := sort_desc (fun a b => lt (snd a) (snd b)) l.
Definition pareto_front (rs : list nat) : St nst (list nat) :=
  let* ks := with_key (fun i => let* s := score_of i in let* f := fitness_of i in ret (s, f)) rs in
  match by_key (lex_lt nlt) ks with
  | [] => raise IndexError
  | p :: l => ret (map fst (p :: front (snd (snd p)) l))
  end.
(* 20-21, 67-71, 77-80 *)
Definition novelty (b : ncalc) (t : nstype) (k : nat) (rs : list nat) : St nst (list nat) :=
  match b with
  | NProgressive =>
      let* fs := mmap fitness_of rs in
      let m := nmedian fs in
      novelty_score b t k (map fst (filter (fun p => nle m (snd p)) (combine rs fs)))
  | NPareto => let* out := novelty_score b t k rs in pareto_front out
  | _ => novelty_score b t k rs
  end.

(* ns.py:184-186; archive.py:39-41 *)
Definition n_best (rs : list nat) (n : nat) : St nst (list nat) :=
  let* ks := with_key (fun i => let* s := score_of i in let* e := experience_of i in ret (s, e)) rs in
  ret (map fst (firstn n (by_key (lex_lt qlt) ks))).
Definition archive_rules (a : archive_kind) (rs : list nat) (n : nat) : St nst (list nat) :=
  match a with
  | ANovel => let* best := n_best rs n in extend_archive best ;; ret rs
  | ARandom => let* rs' := on_rng (fun g => let '(l, g') := shuffle rs g in (Ok l, g')) in extend_archive (firstn n rs') ;; ret rs'   (* in place *)
  | ANone => ret rs
  end.
(* 174-182; archive.py:39-49, 58-59 *)
Definition rule_selection (c : nscfg) (rs : list nat) (n roh : nat) : St nst (list nat) :=
  let* out := novelty (ns_calc c) (ns_type c) (ns_k c) rs in
  let* out' := if ns_use_pop c then extend_archive out ;; ret out else archive_rules (ns_archive c) out roh in
  n_best out' n.

(* crossover.py:15-48.  The operator is chosen by matching_type; the unfinished ones are called with unknown keywords. *)
Definition uniform_crossover (t : mtype) (a b : matching) : St rng (list matching) :=
  match t with
  | OrderedBound =>
      let n := length (bnd a) in
      let* mask := choices [false; true] n in
      let pick (x y : list (Q * Q)) := rmap (fun i => of_option IndexError (nth_error (if nth i mask false then x else y) i)) (seq 0 n) in
      let* a' := lift (pick (bnd a) (bnd b)) in
      let* b' := lift (pick (bnd b) (bnd a)) in
      ret [mkMatching (mt a) a'; mkMatching (mt b) b']
  | _ => raise TypeError
  end.
Definition crossover (rate : Q) (t : mtype) (a b : matching) : St rng (list matching) :=
  let* u := (fun g => let '(u, g') := random g in (Ok u, g')) in
  if qlt u rate then uniform_crossover t a b else ret [a; b].
(* zip([iter(parents)] * 2) *)
Fixpoint pairs {A} (l : list A) : list (A * A) := match l with a :: b :: l' => (a, b) :: pairs l' | _ => [] end.

(* ns.py:142-153 *)
Definition init_population (c : nscfg) (D : denv L) : St nst (list nat) :=
  let* xs := on_rng (origins (d_origin (ns_d c)) D (ns_mu c)) in
  mmap (fun x => let* r := on_rng (new_rule (ns_d c) D x) in alloc r) xs.
(* 155-159 *)
Definition select_parents (c : nscfg) (pop : list nat) : St nst (list nat) :=
  let* rs := mmap (fun i => let* x := cell_of i in ret (i, crule x)) pop in
  let* ps := on_rng (select_rules (fun k => rfit (snd k)) (fun k => rerr (snd k)) (fun k => rule_volume L (snd k)) (fun a b => Nat.eqb (fst a) (fst b))
                       (ns_sel c) rs (ns_lambda c)) in
  on_rng (fun g => let '(l, g') := shuffle (map fst ps) g in (Ok l, g')).
(* 161-172; mutation works on clones, so a child is always a new object *)
Definition make_children (c : nscfg) (D : denv L) (parents : list nat) : St nst (list nat) :=
  let* conds := mmap (fun p => let* a := cell_of (fst p) in let* b := cell_of (snd p) in
                               on_rng (crossover (ns_rate c) (d_type (ns_d c)) (cond (crule a)) (cond (crule b)))) (pairs parents) in
  mmap (fun m => let* r := on_rng (mutant (ns_d c) (ns_mut c) D (fresh_rule L m)) in alloc r) (concat conds).
Definition valid_children (ids : list nat) : St nst (list nat) :=
  let* rs := mmap (fun i => let* x := cell_of i in ret (i, crule x)) ids in
  ret (map fst (filter (fun p => is_valid (snd p)) rs)).
(* 114-140 *)
Fixpoint ns_loop (c : nscfg) (D : denv L) (n : nat) (pop best : list nat) : St nst (list nat) :=
  match n with
  | O => ret best
  | S n' =>
      let* parents := select_parents c pop in
      match parents with
      | [] => ns_loop c D n' pop best
      | _ =>
          let* children := make_children c D parents in
          let* valid := valid_children children in
          match valid with
          | [] => ns_loop c D n' pop best
          | _ =>
              let* bc := rule_selection c valid (ns_mu c) (ns_roh c) in
              let* bp := rule_selection c parents (ns_elitists c) 0 in
              ns_loop c D n' (bc ++ bp) bc
          end
      end
  end.
(* 188-199: novelty_score_ is deleted; distances_ and idx_ stay, the code looks for "distance_" *)
Definition stripped (c : cell) : cell := mkCell (crule c) (cdist c) (cidx c) None.
Fixpoint accepted (a : acceptance) (y : targets) (cs : list cell) : res (list cell) :=
  match cs with
  | [] => Ok []
  | c :: cs' => let? ok := accept a (crule c) y in let? rest := accepted a y cs' in Ok (if ok then c :: rest else rest)
  end.
(* 100-112: the archive starts as a deep copy of the pool *)
Definition ns_run (c : nscfg) (D : denv L) (n_rules : nat) : St nst (list cell) :=
  let* pop := init_population c D in
  let* best := ns_loop c D (ns_iter c) pop [] in
  let* out := mmap (fun i => let* x := cell_of i in ret (stripped x)) (firstn n_rules best) in
  lift (accepted (d_accept (ns_d c)) (dy D) out).
Definition ns_optimize (c : nscfg) (X : matrix) (y : targets) (pool : list cell) (elite : option (list bool)) (mix : mixing) (n_rules : nat) : St rng (list cell) :=
  fun g => let '(r, s) := ns_run c (mkDenv X y (map crule pool) elite mix) n_rules (mkNst pool (seq 0 (length pool)) g) in (r, gen s).
End Novelty.
Arguments mkCell {L}. Arguments crule {L}. Arguments cdist {L}. Arguments cidx {L}. Arguments cscore {L}. Arguments mkNst {L}. Arguments cells {L}. Arguments arch {L}. Arguments gen {L}.
Arguments novelty_score {L}. Arguments novelty {L}. Arguments filter_rules {L}. Arguments local_competition {L}. Arguments mark {L}. Arguments pareto_front {L}. Arguments n_best {L}.
Arguments rule_selection {L}. Arguments ns_loop {L}. Arguments ns_run {L}. Arguments ns_optimize {L}. Arguments archive_rules {L}.
