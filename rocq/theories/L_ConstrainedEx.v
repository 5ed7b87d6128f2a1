(* Small fit calls used as witnesses for the region of the learned rules. *)
From Coq Require Import Lia Qminmax.
From Verif Require Import PyNum PyList PyMon PyRng L_Num M_Matching S_Matching M_Rule M_RuleGen M_Mixing M_Discovery S_Discovery L_RuleProps L_MixingProps L_DiscoveryEx M_Novelty M_Solution M_Composition M_GA M_Fit S_Fit L_FitEx M_Shipped S_Shipped
  L_ShippedEx L_PredictingEx S_Constrained L_Constrained.
From Coq Require Import Lqa.

Definition conf_t (t : mtype) (i : rule_init) : dcfg := mkDcfg t i (Clip []) (MaxError (Fin 1)) UniformSamples.
Definition es_c (t : mtype) (mu : mutation) : escfg := mkEs (conf_t t MeanInit) 2 2 EsPlus 2 (Mut mu) RFittest.
Definition rs_c (t : mtype) (i : rule_init) : rscfg := mkRs (conf_t t i) 2 RFittest.
(* as the defaults, with a larger minimum range *)
Definition usual : given_constraint := GivenCombined (1#10) None.
Definition es_t (t : mtype) (mu : mutation) : discovery ML := es_discovery ML tapes (es_c t mu) usual.
Definition rs_t (t : mtype) (i : rule_init) : discovery ML := rs_discovery ML tapes (rs_c t i) usual.
Definition rs_w : discovery ML := rs_discovery ML tapes (rs_c OrderedBound (NormalInit (Scalar 1))) (GivenMinRange 1).

Lemma dx_bounding : bounding dx [(0, 2)].
Proof.
  split.
  - intros x [<-|[<-|[<-|[]]]]; repeat constructor; vm_compute; discriminate.
  - intros other H. pose proof (H [0] (or_introl eq_refl)) as H0. pose proof (H [2] (or_intror (or_intror (or_introl eq_refl)))) as H2. unfold in_space in *.
    inversion H0 as [|? ? ? ? A B]; subst. inversion B; subst. inversion H2; subst. constructor; [|constructor]. cbn in *. lra.
Qed.
Definition reaches (h : Q) (r : rule ML) : bool := existsb (fun b => qlt h (hi (mt (cond r)) b)) (bnd (cond r)).
Definition pointlike (r : rule ML) : bool := forallb (fun b => qeq (hi OrderedBound b) (lo OrderedBound b)) (bnd (cond r)).
Lemma reaches_out l h r : reaches h r = true -> ~ inside [(l, h)] (cond r).
Proof.
  unfold reaches, inside. generalize (mt (cond r)) (bnd (cond r)). intros t bs H HI. inversion HI as [|? b ? bs' [_ A] B]; subst. inversion B; subst. cbn [existsb snd] in *.
  rewrite orb_false_r in H. apply qlt_iff in H. lra.
Qed.
Lemma pointlike_zero r : pointlike r = true -> Forall (fun b => hi OrderedBound b == lo OrderedBound b) (bnd (cond r)).
Proof. unfold pointlike. rewrite forallb_forall, Forall_forall. intros H b Hb. apply qeq_iff. auto. Qed.
Lemma unordered_outside : exists (L : learner) rngof (D : discovery L) k (C : composition L) (G : logger L) p X y d space (e' : est D C G) r,
  works_with L rngof D UnorderedBound k /\ table d X y /\ given_dim d k /\ clips_to X k space /\ fit p 0 false X y (unfitted D C G) = (Ok tt, e') /\ is_error e' = false /\ In r (pool e') /\ ~ inside space (cond r).
Proof.
  assert (HR : existsb (reaches 2) (pool (plain_end (es_t UnorderedBound (MutNormal (Scalar 1))) dx dyy par1)) = true) by (vm_compute; reflexivity). apply existsb_exists in HR as (r & HR1 & HR2).
  exists ML, tapes, (es_t UnorderedBound (MutNormal (Scalar 1))), usual, ga1, silent, par1, dx, dyy, 1%nat, [(0, 2)], (plain_end (es_t UnorderedBound (MutNormal (Scalar 1))) dx dyy par1), r.
  split; [apply (With_es ML tapes (es_c UnorderedBound (MutNormal (Scalar 1))) usual)|]. split; [exact dx_table|]. split; [exact I|]. split; [constructor; exact dx_bounding|].
  split; [apply plain_ended; vm_compute; reflexivity|]. split; [vm_compute; reflexivity|]. exact (conj HR1 (reaches_out _ _ _ HR2)).
Qed.
Lemma zero_width : exists (L : learner) rngof (D : discovery L) mr (C : composition L) (G : logger L) p X y d space (e' : est D C G) r,
  works_with L rngof D OrderedBound (GivenCombined mr None) /\ 0 < mr /\ table d X y /\ bounding X space /\ Forall (fun lh => mr <= snd lh - fst lh) space /\
  fit p 0 false X y (unfitted D C G) = (Ok tt, e') /\ is_error e' = false /\ In r (pool e') /\ Forall (fun b => hi OrderedBound b == lo OrderedBound b) (bnd (cond r)).
Proof.
  assert (HR : existsb pointlike (pool (plain_end (rs_t OrderedBound (NormalInit (Scalar 1))) dx dyy par1)) = true) by (vm_compute; reflexivity). apply existsb_exists in HR as (r & HR1 & HR2).
  exists ML, tapes, (rs_t OrderedBound (NormalInit (Scalar 1))), (1#10), ga1, silent, par1, dx, dyy, 1%nat, [(0, 2)], (plain_end (rs_t OrderedBound (NormalInit (Scalar 1))) dx dyy par1), r.
  split; [apply (With_rs ML tapes (rs_c OrderedBound (NormalInit (Scalar 1))) usual)|]. split; [reflexivity|]. split; [exact dx_table|]. split; [exact dx_bounding|].
  split; [repeat constructor; vm_compute; discriminate|].
  split; [apply plain_ended; vm_compute; reflexivity|]. split; [vm_compute; reflexivity|]. exact (conj HR1 (pointlike_zero _ HR2)).
Qed.
Lemma center_outside : exists (L : learner) rngof (D : discovery L) k (C : composition L) (G : logger L) p X y d space (e' : est D C G) r,
  works_with L rngof D CenterSpread k /\ table d X y /\ given_dim d k /\ clips_to X k space /\ fit p 0 false X y (unfitted D C G) = (Ok tt, e') /\ is_error e' = false /\ In r (pool e') /\ ~ inside [(-(1), 1)] (cond r).
Proof.
  assert (HR : existsb (reaches 1) (pool (plain_end (rs_t CenterSpread (NormalInit (Pair 1 1))) dx dyy par1)) = true) by (vm_compute; reflexivity). apply existsb_exists in HR as (r & HR1 & HR2).
  exists ML, tapes, (rs_t CenterSpread (NormalInit (Pair 1 1))), usual, ga1, silent, par1, dx, dyy, 1%nat, [(0, 2)], (plain_end (rs_t CenterSpread (NormalInit (Pair 1 1))) dx dyy par1), r.
  split; [apply (With_rs ML tapes (rs_c CenterSpread (NormalInit (Pair 1 1))) usual)|]. split; [exact dx_table|]. split; [exact I|]. split; [constructor; exact dx_bounding|].
  split; [apply plain_ended; vm_compute; reflexivity|]. split; [vm_compute; reflexivity|]. exact (conj HR1 (reaches_out _ _ _ HR2)).
Qed.
