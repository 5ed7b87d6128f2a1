(* Artificial bee colony for solution composition: suprb/optimizer/solution/abc; suprb/optimizer/solution/utils.py. *)
From Verif Require Import PyNum PyList PyMon PyRng PyStat M_Matching M_Rule M_Mixing M_Solution M_Composition M_GenomeOps.

(* utils.py:6-7 sigmoid with the default scale and offset, and np.log: parameters *)
Record smath : Type := mkSmath { m_sigmoid : num -> num; m_log : num -> num }.
(* utils.py:10-11 *)
Definition sigmoid_binarize (M : smath) (xs : list num) : HSt plain (list bool) :=
  let* us := rnd1 (randoms (length xs)) in ret (map2 (fun u x => nle (Fin u) (m_sigmoid M x)) us xs).
(* astype(np.float) *)
Definition bitq (b : bool) : Q := if b then 1 else 0.

(* food.py: how a bee moves from its own source towards another one *)
Inductive food : Type := FSigmoid | FBitwise | FDimensionFlips (rate : Q).
Definition food_bits (M : smath) (f : food) (own other : list bool) : HSt plain (list bool) :=
  match f with
  | FSigmoid =>                                                              (* 30-38 *)
      let* qs := rnd1 (draws (length own)) in
      let rand := map (uniform_of (-(1)) 1) qs in
      sigmoid_binarize M (map2 (fun r ab => Fin (bitq (fst ab) + r * (bitq (fst ab) - bitq (snd ab)))) rand (combine own other))
  | FBitwise =>                                                              (* 48-55; the genome becomes an int array of zeros and ones *)
      let* qs := rnd1 (draws (length own)) in
      ret (map2 (fun q ab => xorb (fst ab) (Nat.eqb (index_of 2 q) 1 && (fst ab || snd ab))) qs (combine own other))
  | FDimensionFlips rate =>                                                  (* 69-80 *)
      let n := length own in
      let n_flips := Qceiling (qofnat n * rate) in
      if Z.ltb n_flips 0 then raise ValueError else                          (* choice with a negative size *)
      let* dims := rnd (sample (seq 0 n) (Z.to_nat n_flips)) in
      ret (mapi (fun i ab => if mem i dims then snd ab else fst ab) (combine own other))
  end.
Definition food_call (M : smath) (f : food) (own other : nat) : HSt plain nat :=
  let* bo := genome own in let* bt := genome other in
  let* bits := food_bits M f bo bt in clone_with own bits.

(* food.py:11-15 *)
Record source : Type := mkSrc { src : nat; trials : nat }.
(* base.py:63-74 greedy_update; zip stops with the shorter list, the other sources stay *)
Fixpoint greedy_update (news : list nat) (fs : list source) : HSt plain (list source) :=
  match news, fs with
  | n :: news', f :: fs' =>
      let* fn := fitness n in let* fo := fitness (src f) in
      let f' := if nlt fo fn then mkSrc n 0 else mkSrc (src f) (S (trials f)) in
      let* rest := greedy_update news' fs' in ret (f' :: rest)
  | _, _ => ret fs
  end.

Record bcfg : Type := mkBee { be_iter : nat; be_size : nat; be_limit : nat; be_food : food }.
Section Bees.
Variables (M : smath) (c : bcfg).
(* 84-90, 93-103: every source with its partner *)
Definition bee_phase {L} (E : env L) (fs : list source) (others : list nat) : HSt plain (list source) :=
  let* news := mmap (fun p => let* n := food_call M (be_food c) (src (fst p)) (snd p) in fit E n) (combine fs others) in
  greedy_update news fs.
(* 106-110 *)
Definition scout {L} (E : env L) (ini : sinit) (f : source) : HSt plain source :=
  if Nat.leb (be_limit c) (trials f) then
    let* r := init_call ini (length (epool E)) in fit E r ;; ret (mkSrc r 0)
  else ret f.
(* 83-113 one iteration *)
Definition bee_step {L} (E : env L) (ini : sinit) (fs : list source) : HSt plain (list source) :=
  let* others := rnd (choices (map src fs) (be_size c)) in
  let* fs1 := bee_phase E fs others in
  let* ws := fitnesses (map src fs1) in
  let total := nsum ws in
  let* others := rnd (choices_num (map src fs1) (be_size c) (map (fun w => ndiv w total) ws)) in
  let* fs2 := bee_phase E fs1 others in
  mmap (scout E ini) fs2.
(* 76-113 _optimize *)
Definition bee_run L (E : env L) (ini : sinit) (pop : list nat) (_ : unit) : HSt plain (list nat * unit) :=
  let* pop := fit_all E pop in
  let* fs := iterate (be_iter c) (bee_step E ini) (map (fun r => mkSrc r 0) pop) in
  ret (map src fs, tt).
Definition bees : optimizer plain := mkOpt plain unit (fun _ => be_size c) bee_run.
End Bees.
