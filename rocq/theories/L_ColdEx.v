(* Histories of composition steps without warm start. *)
From Verif Require Import PyNum PyList PyMon PyRng PyStat L_Num M_Matching M_Rule M_Mixing M_GenomeOps M_Solution M_Composition M_GA M_Saga M_Sas M_Fit M_Shipped S_More S_Cold L_RuleProps L_HeapProps L_GenomeProps L_SasProps L_Shipped.

Lemma compose_last {K L} (O : optimizer K) c (steps : list (env L * rng)) E q st s a t : compose O c steps st s = (Ok a, t) -> compose O c (steps ++ [(E, q)]) st s = optimize O c E q a t.
Proof.
  revert st s. induction steps as [|[E0 q0] steps IH]; intros st s H; cbn [compose app] in *.
  - injection H as <- <-. unfold bind. destruct (optimize O c E q st s) as [[z|e] u]; reflexivity.
  - unfold bind in *. destruct (optimize O c E0 q0 st s) as [[z|e] u]; [apply IH; exact H|discriminate].
Qed.
Lemma forgotten {K} (O : optimizer K) L (steps steps' : list (env L * rng)) E q c st st' s s' a a' t t' : forgets O -> cwarm c = false -> carchive c = false ->
  compose O c steps st s = (Ok a, t) -> compose O c steps' st' s' = (Ok a', t') -> same_step (fun _ _ => True) (compose O c (steps ++ [(E, q)]) st s) (compose O c (steps' ++ [(E, q)]) st' s').
Proof. intros HO HW HA H H'. rewrite (compose_last O c steps E q st s a t H), (compose_last O c steps' E q st' s' a' t' H'). apply (HO L E c q a a' t t' HW HA). Qed.

Definition cold_s1 : s1cfg := mkS1 1 2 0 SelRandom Uniform 0 (1#10) 0 1 30 0 1 1.
Definition cold_step : env mean_learner * rng := (count_env by_count1, a_tape).
Definition cold_s2 : s2cfg := mkS2 3 6 0 SelRandom Uniform (1#10) 1 (1#10) 1.
(* the identity in place of root and cosine *)
Definition cold_trig : trig := mkTrig (fun v => v) (fun v => v) (1#100).
Definition cold_sas : sascfg := mkSas 2 4 Uniform 1 0.
Definition cold_ga : gcfg := mkG 1 2 0 SelRandom Uniform 1 (1#10).
Lemma views_genomes {K} (t t' : hst K) rs rs' : map (view t) rs = map (view t') rs' ->
  map (fun r => match view t r with Some (bits, _, _) => Some bits | None => None end) rs = map (fun r => match view t' r with Some (bits, _, _) => Some bits | None => None end) rs'.
Proof. revert rs'. induction rs as [|r rs IH]; intros [|r' rs'] H; try discriminate; [reflexivity|]. cbn [map] in *. injection H as H1 H2. rewrite H1. f_equal. apply IH. exact H2. Qed.
Lemma remembers_not {K} (O : optimizer K) i c : forgets O -> cwarm c = false -> carchive c = false -> ~ remembers O i c.
Proof.
  intros HO HW HA (L & steps & [E q] & g & l & l' & H1 & H2 & HN). apply HN. unfold genomes_after in *.
  destruct (compose O c steps (fresh_comp O i) (mkH [] [] g)) as [[a|e] t] eqn:EC.
  - pose proof (forgotten O L steps [] E q c (fresh_comp O i) (fresh_comp O i) (mkH [] [] g) (mkH [] [] g) a (fresh_comp O i) t (mkH [] [] g) HO HW HA EC eq_refl) as HS. cbn [app] in HS. unfold same_step in HS.
    destruct (compose O c (steps ++ [(E, q)]) _ _) as [[b|e] u]; [|discriminate]. destruct (compose O c [(E, q)] _ _) as [[b'|e'] u']; [|discriminate]. destruct HS as (HV & _). injection H1 as <-. injection H2 as <-. apply views_genomes. exact HV.
  - assert (HF : forall st s, compose O c steps st s = (Raise e, t) -> compose O c (steps ++ [(E, q)]) st s = (Raise e, t)).
    { clear. induction steps as [|[E0 q0] steps IH]; intros st s H; cbn [compose app] in *; [discriminate|]. unfold bind in *. destruct (optimize O c E0 q0 st s) as [[z|e'] u]; [apply IH; exact H|exact H]. }
    rewrite (HF _ _ EC) in H1. discriminate.
Qed.
(* the composition of the example as a component of the estimator, and its state at first and after a step *)
Definition cold_comp : composition mean_learner := shipped_composition mean_learner (fun _ => a_tape) (ga cold_ga) tt (mkCcfg (RandomInit (1#2)) false false) (M_Solution.emix ex_env) (fun _ => by_count1).
Definition cold_first : cst cold_comp := (fresh_comp (ga cold_ga) tt, mkH [] [] a_tape).
Definition cold_run (z : cst cold_comp) : res unit * cst cold_comp := crun cold_comp (eX ex_env) (ey ex_env) 3 (M_Solution.epool ex_env) (mkSeed (mkStream 0 []) 0) z.
Definition cold_second : cst cold_comp := snd (cold_run cold_first).
(* a discovery that delivers given rules, and what fit makes of them *)
Definition batches (bs : list (list (rule mean_learner))) : discovery mean_learner :=
  mkDiscovery (list (list (rule mean_learner))) (fun _ => Ok bs) (fun _ _ _ _ _ _ st => match st with b :: st' => (Ok b, (0%nat, st')) | [] => (Ok [], (0%nat, [])) end).
Definition in_two (k : nat) : discovery mean_learner := batches [firstn k (M_Solution.epool ex_env); skipn k (M_Solution.epool ex_env)].
Definition cold_par (patience : Z) : params := mkParams 2 0 1 (IntSeed 7) patience 0.
Definition cold_fit (k : nat) (patience : Z) : res unit * est (in_two k) cold_comp (recorder mean_learner) := fit (cold_par patience) 0 false (eX ex_env) (ey ex_env) (unfitted (in_two k) cold_comp (recorder mean_learner)).
Lemma batches_differ : in_two 1 <> in_two 2.
Proof. intros H. assert (HL : forall D D' : discovery mean_learner, D = D' -> forall (g : forall D, dst D -> nat), (match dnew D [] with Ok d => g D d | Raise _ => 0%nat end) = (match dnew D' [] with Ok d => g D' d | Raise _ => 0%nat end)) by (intros D D' <- g; reflexivity).
  specialize (HL _ _ H (fun D d => match fst (drun D [] [] [] None 0 (mkSeed (mkStream 0 []) 0) d) with Ok l => length l | Raise _ => 0%nat end)). vm_compute in HL. discriminate. Qed.
(* with an archive: the state after a step, and a state that holds the archived solution and nothing else *)
Definition kept_cc : ccfg := mkCcfg (RandomInit (1#2)) false true.
Definition kept_after : res (comp (ga cold_ga)) * hst plain := compose (ga cold_ga) kept_cc [cold_step] (fresh_comp (ga cold_ga) tt) (mkH [] [] a_tape).
Definition kept_comp : comp (ga cold_ga) := match fst kept_after with Ok a => a | Raise _ => fresh_comp (ga cold_ga) tt end.
Definition kept_alone : hst plain := match map (view (snd kept_after)) (carch kept_comp) with [Some (bits, att, x)] => mkH (K := plain) [bits] [mkSol (K := plain) 0 att x] a_tape | _ => mkH (K := plain) [] [] a_tape end.
Definition alone_comp : comp (ga cold_ga) := mkComp (O := ga cold_ga) [] [0%nat] tt.
Definition poor_step : env mean_learner * rng := (count_env by_count1, mkRng (fun _ => 9#10) 0).
