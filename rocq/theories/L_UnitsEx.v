(* Concrete cases for the theorems about units. *)
From Verif Require Import PyNum PyList PyMon PyRng L_Num M_Matching M_Rule M_RuleGen M_Mixing M_GenomeOps M_Discovery M_Novelty M_Solution M_Composition M_GA M_Fit M_Shipped M_Logging S_Units L_Units L_GenomeProps.
From Coq Require Import Lqa.

(* the straight line through the first and the last sample, in the first feature *)
Definition through (p : option (Q * Q * (Q * Q))) (x : row) : Q :=
  match p with None => 0 | Some ((x0, y0), (x1, y1)) => Qred (y0 + (y1 - y0) * ((hd 0 x - x0) / (x1 - x0))) end.
Definition line_learner : learner :=
  mkLearner (option (Q * Q * (Q * Q))) (fun X y => match X with [] => None | x :: _ => Some ((hd 0 x, hd 0 y), (hd 0 (last X []), last y 0)) end) through (fun _ e => Fin (1 - e)).
Lemma hd_units a shifts x x' z z' : same_point a shifts x x' -> same_point a shifts z z' -> hd 0 x' - hd 0 z' == a * (hd 0 x - hd 0 z).
Proof. intros [|s t t' ss ts ts' H _] H2; inversion H2 as [|s2 u u' ss2 us us' H3 _]; subst; cbn; [ring|]. unfold in_units in *. rewrite H, H3. ring. Qed.
Lemma last_units a shifts X X' x x' : Forall2 (same_point a shifts) (x :: X) (x' :: X') -> same_point a shifts (last (x :: X) []) (last (x' :: X') []).
Proof.
  intros H. assert (Hx : same_point a shifts x x') by (inversion H; assumption). assert (HT : Forall2 (same_point a shifts) X X') by (inversion H; assumption). clear H. rename HT into H. revert x x' Hx. induction H as [|z z' X X' Hz H IH]; intros x x' Hx; [exact Hx|]. apply (IH z z' Hz).
Qed.
Lemma quotient_scaled a s t : 0 < a -> (a * s) / (a * t) == s / t.
Proof.
  intros H. destruct (Qeq_dec t 0) as [E|E]; [|field; split; [exact E|intros F; rewrite F in H; discriminate]].
  assert (E1 : a * t == 0) by (rewrite E; ring). unfold Qdiv. rewrite E1, E. change (/ 0) with 0. ring.
Qed.
Lemma line_unitless a shifts : 0 < a -> unitless a shifts line_learner line_learner.
Proof.
  intros H. constructor; [|reflexivity]. intros X X' y x x' HX Hx. cbn [mpred train line_learner]. pose proof HX as HX2. destruct HX as [|z z' X X' Hz HX]; [reflexivity|].
  unfold through. apply Qred_complete. rewrite (hd_units a shifts x x' z z' Hx Hz), (hd_units a shifts _ _ z z' (last_units a shifts X X' z z' HX2) Hz), (quotient_scaled a _ _ H). reflexivity.
Qed.
(* lengths in centimetres from 5 cm, and in millimetres from 0 *)
Definition in_cm : matrix := [[0]; [1]; [3]].
Definition in_mm : matrix := [[50]; [60]; [80]].
Definition heights : targets := [1; 2; 7].
Lemma lengths_same : Forall2 (same_point 10 [50]) in_cm in_mm.
Proof. repeat constructor. Qed.
Definition units_es (step : Q) : escfg := mkEs (mkDcfg OrderedBound MeanInit (Clip []) (MaxError (Fin 1)) UniformSamples) 2 2 EsPlus 0 (Mut (MutHalfnormIncrease (Scalar step))) RFittest.
Definition units_calls (X : matrix) : list call := [mkCall (mkParams 2 1 1 (IntSeed 7) (-1) 0) 0 false X heights].
Definition some_tape (s : stream) : rng := mkRng (fun i => nth ((i + length (skey s) + fold_right Nat.add 0%nat (skey s)) mod 6) [2#3; 1; 1#3; 1#2; 1#4; 5#6] 0) 0.
Definition units_est (X : matrix) (range step : Q) :=
  after (es_discovery line_learner some_tape (units_es step) (GivenCombined range None))
    (shipped_composition line_learner some_tape (ga (mkG 1 2 (1#2) SelRandom Uniform (9#10) (1#10))) tt (mkCcfg (RandomInit (1#2)) true true) (mkMixing KeepAll ExpAsIs 1) (fun _ e _ _ => Fin (1 - e)))
    (default_logger line_learner (scripted [])) (units_calls X).
Definition shown_at (Z : matrix) (X : matrix) (range step : Q) : res (list Q) := fst (M_Fit.predict (units_est X range step) Z (scripted [])).
Definition no_error (X : matrix) (range step : Q) : bool := M_Fit.is_fitted (units_est X range step) && negb (is_error (units_est X range step)).
Lemma es_rescaled s : rescaled_es 10 (units_es s) (units_es (10 * s)).
Proof. repeat constructor; cbn; unfold distance; ring. Qed.
Lemma given_rescaled r : rescaled_given 10 [50] (GivenCombined r None) (GivenCombined (10 * r) None).
Proof. split; [unfold distance; ring|exact I]. Qed.
Lemma calls_rescaled : Forall2 (same_call 10 [50]) (units_calls in_cm) (units_calls in_mm).
Proof. constructor; [|constructor]. split; [reflexivity|]. split; [reflexivity|]. split; [reflexivity|]. split; [exact lengths_same|reflexivity]. Qed.
Definition units_ns (step : Q) : nscfg := mkNs (mkDcfg OrderedBound (HalfnormInit step) (Clip []) (MaxError (Fin 1)) UniformSamples) 2 2 4 1 1 false (1#2) (Mut (MutNormal (Scalar step))) RFittest NBasic TBasic ANovel 1.
Definition ns_est (X : matrix) (range step : Q) :=
  after (ns_discovery line_learner some_tape (units_ns step) (GivenCombined range None))
    (shipped_composition line_learner some_tape (ga (mkG 1 2 (1#2) SelRandom Uniform (9#10) (1#10))) tt (mkCcfg (RandomInit (1#2)) true true) (mkMixing KeepAll ExpAsIs 1) (fun _ e _ _ => Fin (1 - e)))
    (default_logger line_learner (scripted [])) (units_calls X).
Lemma ns_rescaled s : rescaled_ns 10 (units_ns s) (units_ns (10 * s)).
Proof. repeat constructor; cbn; unfold distance; ring. Qed.
