(* The part of solution composition that all metaheuristics share: suprb/optimizer/solution/base.py and archive.py. *)
From Verif Require Import PyNum PyList PyMon PyRng M_Matching M_Rule M_Mixing M_Solution.

(* A metaheuristic: the attributes it keeps between calls, its population_size, and its _optimize,
   from the padded population to the new one (base.py:117-120). *)
Record optimizer (K : skind) : Type := mkOpt {
  ostate : Type;
  osize : ostate -> nat;
  orun : forall L, env L -> sinit -> list nat -> ostate -> HSt K (list nat * ostate)
}.
Arguments ostate {K}. Arguments osize {K}. Arguments orun {K}.

(* init, warm_start, archive (Elitist() or None) *)
Record ccfg : Type := mkCcfg { cinit : sinit; cwarm : bool; carchive : bool }.
(* population_ (missing = empty: base.py:125, 136 treat both alike), archive.population_, own attributes *)
Record comp {K} (O : optimizer K) : Type := mkComp { cpop : list nat; carch : list nat; cint : ostate O }.
Arguments mkComp {K O}. Arguments cpop {K O}. Arguments carch {K O}. Arguments cint {K O}.

Section Composition.
Variable K : skind.

Definition set_rng (g : rng) : HSt K unit := fun s => (Ok tt, mkH (garr s) (sols s) g).
Fixpoint times {A} (n : nat) (m : HSt K A) : HSt K (list A) :=
  match n with O => ret [] | S n' => let* x := m in let* xs := times n' m in ret (x :: xs) end.

(* base.py:133-139 _init_population *)
Definition init_population (c : ccfg) (size npool : nat) (pop : list nat) : HSt K (list nat) :=
  if negb (cwarm c) || match pop with [] => true | _ => false end
  then times size (init_call (cinit c) npool)
  else mmap (init_pad (cinit c) npool) pop.

(* archive.py:36-45 Elitist.__call__ *)
Definition archive_call (arch pop : list nat) : HSt K (list nat) :=
  let* best := fittest pop in
  match arch with
  | [] => let* c := clone best in ret [c]
  | a :: rest =>
      let* fa := fitness a in let* fb := fitness best in
      if nlt fa fb then let* c := clone best in ret (rest ++ [c]) else ret arch
  end.

(* base.py:88-115 optimize; g: the generator made from this step's seed.
   archive.pool_ is the same list object as pool_ (suprb.py:155-160), so archive.pad() pads to the current length. *)
Definition optimize {L} (O : optimizer K) (c : ccfg) (E : env L) (g : rng) (st : comp O) : HSt K (comp O) :=
  set_rng g ;;
  let npool := length (epool E) in
  let* pop := init_population c (osize O (cint st)) npool (cpop st) in
  (if carchive c then miter (pad_zero npool) (carch st) ;; fit_all E (carch st) ;; ret tt else ret tt) ;;
  let* r := match epool E with
            | [] => let* r := init_call (cinit c) npool in let* r' := fit E r in ret ([r'], cint st)
            | _ => orun O L E (cinit c) pop (cint st)
            end in
  let '(pop', i') := r in
  let* arch := if carchive c then let* a := archive_call (carch st) pop' in fit_all E a else ret [] in
  ret (mkComp pop' arch i').

(* base.py:122-131 elitist; None while there is no population *)
Definition elitist {O : optimizer K} (st : comp O) : HSt K (option nat) :=
  match cpop st with
  | [] => ret None
  | pop => let* r := fittest (pop ++ carch st) in ret (Some r)
  end.

(* the composition steps of one fit call, one after the other *)
Fixpoint compose {L} (O : optimizer K) (c : ccfg) (steps : list (env L * rng)) (st : comp O) : HSt K (comp O) :=
  match steps with
  | [] => ret st
  | (E, g) :: steps' => let* st' := optimize O c E g st in compose O c steps' st'
  end.
Definition fresh_comp (O : optimizer K) (i : ostate O) : comp O := mkComp [] [] i.
End Composition.
Arguments set_rng {K}. Arguments times {K A}. Arguments init_population {K}. Arguments archive_call {K}.
Arguments optimize {K L}. Arguments elitist {K O}. Arguments compose {K L}. Arguments fresh_comp {K}.
