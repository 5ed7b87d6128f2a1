(* Concrete cases for the theorems about the order of fitness values. *)
From Verif Require Import PyNum PyList PyMon PyRng L_Num M_Matching M_Rule M_RuleGen M_Mixing M_GenomeOps M_Discovery M_Solution M_Composition M_GA M_Fit M_Shipped M_Logging S_Units S_Order L_GenomeProps L_UnitsEx.
From Coq Require Import Lqa.

(* values above one five times as large, the others unchanged *)
Definition stretch (v : num) : num := match v with Fin q => if qle q 1 then Fin q else Fin (5 * q) | _ => v end.
Lemma stretch_lt a b : (if qle a 1 then a else 5 * a) < (if qle b 1 then b else 5 * b) <-> a < b.
Proof. destruct (qle a 1) eqn:Ea, (qle b 1) eqn:Eb; try apply qle_iff in Ea; try apply qle_iff in Eb; try (apply qle_false in Ea); try (apply qle_false in Eb); split; intros; lra. Qed.
Lemma stretch_fin q : stretch (Fin q) = Fin (if qle q 1 then q else 5 * q).
Proof. cbn. destruct (qle q 1); reflexivity. Qed.
Lemma stretch_rising : rising stretch.
Proof.
  assert (H : forall a b, nlt (stretch a) (stretch b) = nlt a b).
  { intros [a| | |] [b| | |]; rewrite ?stretch_fin; try reflexivity. cbn. apply Bool.eq_iff_eq_true. rewrite !qlt_iff. apply stretch_lt. }
  assert (H2 : forall a b, nle (stretch a) (stretch b) = nle a b).
  { intros [a| | |] [b| | |]; rewrite ?stretch_fin; try reflexivity. cbn. apply Bool.eq_iff_eq_true. rewrite !qle_iff. pose proof (stretch_lt b a). split; intros; apply Qnot_lt_le; intros F; apply H0 in F; lra. }
  intros a b. auto.
Qed.
Definition rank_ga (s : selection) : gcfg := mkG 1 2 (1#2) s Uniform (9#10) (1#10).
Definition rank_calls (patience : Z) : list call := [mkCall (mkParams 3 1 1 (IntSeed 7) patience 10) 0 false in_cm heights].
Definition rank_fit (f : nat -> Q -> nat -> nat -> num) (L : learner) (s : selection) (patience : Z) :=
  after (es_discovery L some_tape (units_es 3) (GivenCombined (1#1000) None)) (shipped_composition L some_tape (ga (rank_ga s)) tt (mkCcfg (RandomInit (1#2)) true true) (mkMixing KeepAll ExpAsIs 1) f)
    (default_logger L (scripted [])) (rank_calls patience).
Definition plain_f (_ : nat) (e : Q) (_ _ : nat) : num := Fin (20 - e).
Definition stretched_f (m : nat) (e : Q) (c n : nat) : num := stretch (plain_f m e c n).
(* two solutions, the second twice as fit *)
Definition two_sols (k : num -> num) : hst plain :=
  mkH [[true]; [false]] [mkSol (K := plain) 0 (Some (mkSatts 0 1 1 (k (Fin 1)))) tt; mkSol (K := plain) 1 (Some (mkSatts 0 1 1 (k (Fin 2)))) tt] (scripted [1#4; 1#4]).
Lemma two_ranked : ranked_heap (ranked_satts stretch) (two_sols (fun v => v)) (two_sols stretch).
Proof. constructor; cbn; [auto|]. repeat constructor. Qed.
(* all values twice as large, with roulette wheels everywhere *)
Definition doubled : num -> num := nmul (Fin 2).
Lemma doubled_proportional : proportional doubled.
Proof. exists 2. split; [reflexivity|]. intros v. reflexivity. Qed.
Definition wheel_es : escfg := mkEs (mkDcfg OrderedBound MeanInit (Clip []) (MaxError (Fin 1)) UniformSamples) 2 2 EsPlus 0 (Mut (MutHalfnormIncrease (Scalar 3))) RRoulette.
Definition wheel_mix : mixing := mkMixing (RouletteWheel 1) ExpAsIs 1.
Definition wheel_fit :=
  after (es_discovery line_learner some_tape wheel_es (GivenCombined (1#1000) None)) (shipped_composition line_learner some_tape (ga (rank_ga SelRoulette)) tt (mkCcfg (RandomInit (1#2)) true true) wheel_mix plain_f)
    (default_logger line_learner (scripted [])) (rank_calls (-1)).
