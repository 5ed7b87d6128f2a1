(* Small fit calls used as examples for the use made of the model found so far. *)
From Verif Require Import PyNum PyList PyMon PyRng L_Num M_Matching S_Matching L_Matching M_Rule M_RuleGen M_Mixing M_Discovery S_Discovery L_RuleProps L_DiscoveryEx M_Novelty M_Fit S_Fit L_FitEx M_Shipped S_Shipped L_ShippedEx S_Predicting
  S_Constrained L_ConstrainedEx S_Guided L_Guided.

Definition conf_o (o : origin) : dcfg := mkDcfg OrderedBound MeanInit (Clip []) (MaxError (Fin 10)) o.
Definition es_conf (mu : mutation) (o : origin) : escfg := mkEs (conf_o o) 2 2 EsPlus 2 (Mut mu) RFittest.
Definition rs_conf (o : origin) : rscfg := mkRs (conf_o o) 2 RFittest.
Definition es_g mu o : discovery ML := es_discovery ML tapes (es_conf mu o) usual.
Definition rs_g o : discovery ML := rs_discovery ML tapes (rs_conf o) usual.
Definition dy2 : targets := [0; 1; 4].
Definition run_g (D : discovery ML) p := fit p 0 false dx dy2 (unfitted (recorded_d D) (recorded_c ga1) silent).
Definition end_g D p := snd (run_g D p).
Definition par_g : params := par 4 2 1 (IntSeed 7) (-1) 0.
Definition par_s : params := par 4 0 1 (IntSeed 7) (-1) 0.
Definition wide_es : discovery ML := es_g (MutHalfnormIncrease (Scalar (1#4))) (Matching true).
Definition loose_es : discovery ML := es_g (MutNormal (Scalar 2)) (Matching true).
Definition error_rs : discovery ML := rs_g (SquaredError true).

Lemma dx_data2 : good_data dx dy2.
Proof. split; [exists 1%nat; split; [discriminate|split; [discriminate|repeat constructor]]|reflexivity]. Qed.
Definition hit (r : rule ML) (x : row) : bool := Nat.eqb (length (bnd (cond r))) (length x) && row_matches (mt (cond r)) (bnd (cond r)) x.
Lemma hit_covers r x : length (bnd (cond r)) = length x -> hit r x = true <-> covers (cond r) x.
Proof. intros H. unfold hit. rewrite H, Nat.eqb_refl. cbn [andb]. apply row_matches_covers. exact H. Qed.
Definition sized (r : rule ML) : bool := Nat.eqb (length (bnd (cond r))) 1.
Lemma sized_covers r x : sized r = true -> In x dx -> hit r x = true <-> covers (cond r) x.
Proof. intros H Hx. apply hit_covers. apply Nat.eqb_eq in H. rewrite H. destruct Hx as [<-|[<-|[<-|[]]]]; reflexivity. Qed.
(* one bit per rule, and conditions of one feature *)
Definition neat (c : dcall ML) (b : elite ML) (new : list (rule ML)) : bool := Nat.eqb (length (ebits b)) (length (d_pool c)) && forallb sized (compress (d_pool c) (ebits b)) && forallb sized new.
Definition seen (rs : list (rule ML)) (x : row) : bool := existsb (fun r => negb (hit r x)) rs.
Lemma seen_missing rs x : forallb sized rs = true -> In x dx -> seen rs x = true <-> missing rs x.
Proof.
  intros HS Hx. unfold seen. rewrite existsb_exists. rewrite forallb_forall in HS. split; intros (r & Hr & H); exists r; (split; [exact Hr|]).
  - apply negb_true_iff in H. intros HC. apply (sized_covers r x (HS r Hr) Hx) in HC. congruence.
  - apply negb_true_iff. destruct (hit r x) eqn:E; [|reflexivity]. exfalso. apply H. apply (sized_covers r x (HS r Hr) Hx). exact E.
Qed.
(* a call with a model that misses a sample, and new rules; stray: one of these covers no such sample *)
Definition guided (stray : bool) (c : dcall ML) : bool :=
  match d_out c, d_elite c with
  | Ok new, Some b => let rs := compress (d_pool c) (ebits b) in neat c b new && existsb (seen rs) dx && (if stray then existsb (fun r => forallb (fun x => negb (seen rs x && hit r x)) dx) new else negb (Nat.eqb (length new) 0))
  | _, _ => false
  end.
Lemma guided_spec c : guided false c = true -> exists new b rs, d_out c = Ok new /\ new <> [] /\ d_elite c = Some b /\ guiding true c rs /\ exists x, In x dx /\ missing rs x.
Proof.
  unfold guided. destruct (d_out c) as [new|] eqn:EO; [|discriminate]. destruct (d_elite c) as [b|] eqn:EL; [|discriminate]. cbv zeta. intros H. apply andb_true_iff in H as [H H2]. apply andb_true_iff in H as [H H1].
  unfold neat in H. apply andb_true_iff in H as [H H3]. apply andb_true_iff in H as [H H4]. apply Nat.eqb_eq in H. apply existsb_exists in H1 as (x & Hx & H1). apply (seen_missing _ _ H4 Hx) in H1.
  exists new, b, (compress (d_pool c) (ebits b)). split; [reflexivity|]. split; [intros ->; discriminate|]. split; [reflexivity|]. split; [unfold guiding; rewrite EL; auto|]. eauto.
Qed.
Lemma stray_spec c : guided true c = true -> exists new rs r, d_out c = Ok new /\ guiding true c rs /\ (exists x, In x dx /\ missing rs x) /\ In r new /\ forall x, In x dx -> missing rs x -> ~ covers (cond r) x.
Proof.
  unfold guided. destruct (d_out c) as [new|] eqn:EO; [|discriminate]. destruct (d_elite c) as [b|] eqn:EL; [|discriminate]. cbv zeta. intros H. apply andb_true_iff in H as [H H2]. apply andb_true_iff in H as [H H1].
  unfold neat in H. apply andb_true_iff in H as [H H3]. apply andb_true_iff in H as [H H4]. apply Nat.eqb_eq in H. apply existsb_exists in H1 as (x & Hx & H1). apply (seen_missing _ _ H4 Hx) in H1.
  apply existsb_exists in H2 as (r & Hr & H2). exists new, (compress (d_pool c) (ebits b)), r. split; [reflexivity|]. split; [unfold guiding; rewrite EL; auto|]. split; [eauto|]. split; [exact Hr|].
  intros x1 Hx1 HM HC. rewrite forallb_forall in H2, H3. specialize (H2 x1 Hx1). apply (seen_missing _ _ H4 Hx1) in HM. apply (sized_covers r x1 (H3 r Hr) Hx1) in HC. rewrite HM, HC in H2. discriminate.
Qed.
Lemma guided_run D p stray : existsb (guided stray) (dcalls (end_g D p)) = true -> exists c, In c (dcalls (end_g D p)) /\ guided stray c = true.
Proof. apply existsb_exists. Qed.
Lemma g_ready D p : seedable (random_state p) -> (exists d, dnew D dx = Ok d) -> ready D ga1 silent p dx dy2.
Proof. intros H HD. split; [exact dx_data2|]. split; [exact H|]. split; [exact HD|]. split; eexists; reflexivity. Qed.
Lemma g_ran D p : fst (run_g D p) = Ok tt -> fit p 0 false dx dy2 (unfitted (recorded_d D) (recorded_c ga1) silent) = (Ok tt, end_g D p).
Proof. apply ended. Qed.
Lemma wide_seeks : seeks ML tapes wide_es (Matching true).
Proof. apply (Seeks_es ML tapes (es_conf (MutHalfnormIncrease (Scalar (1#4))) (Matching true)) (1#10)); [reflexivity|left; reflexivity|]. constructor. discriminate. Qed.
Lemma error_seeks : seeks ML tapes error_rs (SquaredError true).
Proof. apply (Seeks_rs ML tapes (rs_conf (SquaredError true)) (1#10)); [reflexivity|left; reflexivity]. Qed.
(* the model is wrong about some samples and right about others *)
Definition half_right (c : dcall ML) : bool :=
  match d_out c, d_elite c with
  | Ok (_ :: _), Some b =>
      Nat.eqb (length (ebits b)) (length (d_pool c)) && negb (Nat.eqb (length (compress (d_pool c) (ebits b))) 0) && match mfilter (emix b) with KeepAll => true | _ => false end &&
      match fst (sol_predict ML (emix b) (ebits b) (d_pool c) dx false (mkRng (fun _ => 0) 0)) with
      | Ok [p0; p1; p2] => qeq p0 0 && negb (qeq p1 1) && qeq p2 4
      | _ => false
      end
  | _, _ => false
  end.
Lemma half_right_spec c : half_right c = true -> exists new b rs pr g, d_out c = Ok new /\ new <> [] /\ d_elite c = Some b /\ steady (mfilter (emix b)) /\ guiding true c rs /\ rs <> [] /\
  sol_predict ML (emix b) (ebits b) (d_pool c) dx false g = (Ok pr, g) /\ (exists x, mispredicted dx dy2 pr x) /\ (exists x, In x dx /\ ~ mispredicted dx dy2 pr x).
Proof.
  unfold half_right. destruct (d_out c) as [[|r new]|] eqn:EO; try discriminate. destruct (d_elite c) as [b|] eqn:EL; [|discriminate]. intros H. apply andb_true_iff in H as [H H1]. apply andb_true_iff in H as [H H2].
  apply andb_true_iff in H as [H H3]. apply Nat.eqb_eq in H. pose (g := mkRng (fun _ => 0) 0). assert (HSt : steady (mfilter (emix b))) by (destruct (mfilter (emix b)); try discriminate; exact I).
  pose proof (steady_predict (emix b) (ebits b) (d_pool c) dx g g HSt) as HP. fold g in H1. destruct (fst (sol_predict ML (emix b) (ebits b) (d_pool c) dx false g)) as [pr|] eqn:EP; [|discriminate].
  destruct pr as [|p0 [|p1 [|p2 [|]]]]; try discriminate. apply andb_true_iff in H1 as [H1 HQ2]. apply andb_true_iff in H1 as [HQ0 HQ1]. apply qeq_iff in HQ0, HQ2. apply negb_true_iff in HQ1.
  exists (r :: new), b, (compress (d_pool c) (ebits b)), [p0; p1; p2], g. split; [reflexivity|]. split; [discriminate|]. split; [reflexivity|]. split; [exact HSt|]. split; [unfold guiding; rewrite EL; auto|].
  split; [intros E; rewrite E in H3; discriminate|]. split; [exact HP|]. split.
  - exists [1], 1%nat, p1, 1. split; [reflexivity|]. split; [reflexivity|]. split; [reflexivity|]. intros E. apply qeq_iff in E. congruence.
  - exists [0]. split; [left; reflexivity|]. intros (i & a & t & E1 & E2 & E3 & E4). destruct i as [|[|[|i]]]; cbn in *; try discriminate; [|destruct i; discriminate]. injection E2 as <-. injection E3 as <-. auto.
Qed.
Lemma half_right_run D p : existsb half_right (dcalls (end_g D p)) = true -> exists c, In c (dcalls (end_g D p)) /\ half_right c = true.
Proof. apply existsb_exists. Qed.

Lemma guided_example :
  seeks ML tapes wide_es (Matching true) /\ seeks ML tapes error_rs (SquaredError true) /\ table 1 dx dy2 /\ ready wide_es ga1 silent par_g dx dy2 /\ ready error_rs ga1 silent par_s dx dy2 /\
  fst (run_g wide_es par_g) = Ok tt /\ fst (run_g error_rs par_s) = Ok tt /\ length (dcalls (end_g wide_es par_g)) = 5%nat /\
  (exists c new b rs, In c (dcalls (end_g wide_es par_g)) /\ d_out c = Ok new /\ new <> [] /\ d_elite c = Some b /\ guiding true c rs /\ exists x, In x dx /\ missing rs x) /\
  (exists c new b rs pr g, In c (dcalls (end_g error_rs par_s)) /\ d_out c = Ok new /\ new <> [] /\ d_elite c = Some b /\ steady (mfilter (emix b)) /\ guiding true c rs /\ rs <> [] /\
     sol_predict ML (emix b) (ebits b) (d_pool c) dx false g = (Ok pr, g) /\ (exists x, mispredicted dx dy2 pr x) /\ (exists x, In x dx /\ ~ mispredicted dx dy2 pr x)).
Proof.
  split; [exact wide_seeks|]. split; [exact error_seeks|]. split; [split; [repeat constructor|reflexivity]|]. split; [apply g_ready; [discriminate|eexists; reflexivity]|]. split; [apply g_ready; [discriminate|eexists; reflexivity]|].
  split; [vm_compute; reflexivity|]. split; [vm_compute; reflexivity|]. split; [vm_compute; reflexivity|]. split.
  - assert (H : existsb (guided false) (dcalls (end_g wide_es par_g)) = true) by (vm_compute; reflexivity). apply guided_run in H as (c & Hc & H). apply guided_spec in H as (new & b & rs & H). exists c, new, b, rs. exact (conj Hc H).
  - assert (H : existsb half_right (dcalls (end_g error_rs par_s)) = true) by (vm_compute; reflexivity). apply half_right_run in H as (c & Hc & H). apply half_right_spec in H as (new & b & rs & pr & g & H).
    exists c, new, b, rs, pr, g. exact (conj Hc H).
Qed.
(* a mutation that moves the condition *)
Lemma moved_away : exists (L : learner) rngof (c : escfg) mr (C : composition L) (G : logger L) p X y d (e' : est (recorded_d (es_discovery L rngof c (GivenCombined mr None))) (recorded_c C) G) call new rs r,
  d_type (es_d c) = OrderedBound /\ d_init (es_d c) = MeanInit /\ d_origin (es_d c) = Matching true /\ table d X y /\ ready (es_discovery L rngof c (GivenCombined mr None)) C G p X y /\
  fit p 0 false X y (unfitted (recorded_d (es_discovery L rngof c (GivenCombined mr None))) (recorded_c C) G) = (Ok tt, e') /\ In call (dcalls e') /\ d_out call = Ok new /\ guiding true call rs /\
  (exists x, In x X /\ missing rs x) /\ In r new /\ forall x, In x X -> missing rs x -> ~ covers (cond r) x.
Proof.
  assert (H : existsb (guided true) (dcalls (end_g loose_es par_g)) = true) by (vm_compute; reflexivity). apply guided_run in H as (c & Hc & H). apply stray_spec in H as (new & rs & r & H).
  exists ML, tapes, (es_conf (MutNormal (Scalar 2)) (Matching true)), (1#10), ga1, silent, par_g, dx, dy2, 1%nat, (end_g loose_es par_g), c, new, rs, r.
  split; [reflexivity|]. split; [reflexivity|]. split; [reflexivity|]. split; [split; [repeat constructor|reflexivity]|]. split; [apply g_ready; [discriminate|eexists; reflexivity]|].
  split; [apply (g_ran loose_es); vm_compute; reflexivity|]. exact (conj Hc H).
Qed.
