(* Concrete cases for the theorems about fits with more iterations. *)
From Verif Require Import PyNum PyList PyMon PyRng M_Matching M_Rule M_RuleGen M_Mixing M_GenomeOps M_Discovery M_Solution M_Composition M_GA M_Fit M_Shipped S_More L_GenomeProps L_UnitsEx.

(* ComplexityEmary with alpha = 0 *)
Definition by_length (m : nat) (e : Q) (k s : nat) : num := Fin ((1 - qofnat k / qofnat m) * 100).
Definition by_error (m : nat) (e : Q) (k s : nat) : num := Fin (1 - e).
Definition few_rules (f : nat -> Q -> nat -> nat -> num) : composition line_learner := shipped_composition line_learner some_tape (M_GA.rs 1 2) tt (mkCcfg (RandomInit 1) true true) (mkMixing KeepAll ExpAsIs 1) f.
Definition in_iterations (n : nat) (patience : Z) (delta : Q) : params := mkParams n 0 1 (IntSeed 7) patience delta.
Definition found_in (f : nat -> Q -> nat -> nat -> num) (p : params) := fit p 0 false in_cm heights (unfitted (es_discovery line_learner some_tape (units_es 3) (GivenClip None)) (few_rules f) (recorder line_learner)).
From Coq Require Import Reals Qreals Lra.
From Verif Require Import M_Fitness.
Lemma q2r_nat k : Q2R (qofnat k) = INR k.
Proof. unfold qofnat, Q2R. cbn. rewrite <- INR_IZR_INZ. field. Qed.
Lemma emary_by_length m e k s : (0 < m)%nat -> sol_fitness (ComplexityEmary 0) m e k s = Ok (Some (Q2R ((1 - qofnat k / qofnat m) * 100))).
Proof.
  intros H. cbn. unfold complexity_fitness, pseudo_accuracy. destruct (Rlt_dec 0 2); [|lra]. cbn [rbind]. do 2 f_equal. unfold c_norm, rdiv. assert (HM : INR m <> 0%R) by (apply not_0_INR; intros E; subst; inversion H). destruct (Req_EM_T (INR m) 0); [contradiction|]. cbn. f_equal.
  rewrite Q2R_mult, Q2R_minus, Q2R_div, !q2r_nat; [|intros E; apply Qeq_eqR in E; rewrite q2r_nat in E; unfold Q2R in E; cbn in E; apply HM; lra]. unfold Q2R. cbn. field. exact HM.
Qed.
