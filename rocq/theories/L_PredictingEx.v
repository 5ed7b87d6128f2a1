(* Small fit calls and mixing models used as witnesses for predictions. *)
From Coq Require Import Lia.
From Verif Require Import PyNum PyList PyMon PyRng M_Matching M_Rule S_Rule M_RuleGen M_Mixing S_Mixing L_MixingProps M_Discovery S_Discovery L_RuleProps L_DiscoveryEx L_GenomeProps
  M_Solution M_Composition M_GA S_Optimizers M_Fit S_Fit L_FitEx M_Shipped S_Shipped L_ShippedEx S_Predicting L_Predicting.

(* two features *)
Definition wx : matrix := [[0; 0]; [1; 0]; [0; 1]; [1; 1]].
Definition wy : targets := [1; 2; 3; 4].
Definition plain_run (D : discovery ML) (X : matrix) (y : targets) p := fit p 0 false X y (unfitted D ga1 silent).
Definition plain_end D X y p := snd (plain_run D X y p).
Definition bits_of {D : discovery ML} {C} {G} (e : est D C G) : list bool := match elitist e with Some (Learned b) => ebits b | _ => [] end.
Definition flat : rng := mkRng (fun _ => 0) 0.

Lemma bits_elite {D : discovery ML} {C G} (e : est D C G) : In true (bits_of e) -> exists b, elitist e = Some (Learned b) /\ In true (ebits b).
Proof. unfold bits_of. destruct (elitist e) as [[|b]|]; try contradiction. intros H. exists b. auto. Qed.
Lemma plain_ended D X y p r : fst (plain_run D X y p) = r -> fit p 0 false X y (unfitted D ga1 silent) = (r, plain_end D X y p).
Proof. apply ended. Qed.
Lemma wx_table : table 2 wx wy.
Proof. split; [repeat constructor|reflexivity]. Qed.
Lemma es1_library : library_discovery ML tapes es1 (GivenClip None) (MaxError (Fin 1)).
Proof. apply (Lib_es ML tapes (mkEs (d1 (Matching true)) 2 2 EsPlus 2 (Mut (MutNormal (Scalar 1))) RFittest)). Qed.
Lemma rs1_library : library_discovery ML tapes (rs1 (SquaredError true)) (GivenClip None) (MaxError (Fin 1)).
Proof. apply (Lib_rs ML tapes (mkRs (d1 (SquaredError true)) 2 RFittest)). Qed.
(* two rules with different opinions, one of them drawn for each call *)
Definition two_minds : list (rule ML) := [fitted_rule 0 1 1 1 4; fitted_rule 0 1 1 1 7].
Definition one_of : mixing := mkMixing (NRandom 1) ExpAsIs 1.
Lemma drawn_differently : exists (L : learner) mx (rs : list (rule L)) X x1 x2 g o1 g1 o2 g2 a b g3,
  Forall (S_Mixing.ready L 1) rs /\ width_of 1 X /\ X = [x1; x2] /\ mixing_call L mx X rs false g = (Ok o1, g1) /\ mixing_call L mx X rs false g1 = (Ok o2, g2) /\ ~ same_numbers o1 o2 /\ mixing_call L mx [x1] rs false g = (Ok a, g1) /\ mixing_call L mx [x2] rs false g1 = (Ok b, g3) /\ ~ same_numbers (a ++ b) o1.
Proof.
  exists ML, one_of, two_minds, [[0]; [1]], [0], [1], (scripted [0; 1]).
  do 7 eexists. split; [repeat constructor; apply fitted_rule_ready; reflexivity|]. split; [repeat constructor|]. split; [reflexivity|].
  split; [vm_compute; reflexivity|]. split; [vm_compute; reflexivity|]. split; [intros H; inversion H; subst; discriminate|].
  split; [vm_compute; reflexivity|]. split; [vm_compute; reflexivity|]. intros H. inversion H as [|? ? ? ? _ H2]; subst. inversion H2; subst. discriminate.
Qed.
Lemma column_too_many : exists (L : learner) rngof (D : discovery L) k a K (O : optimizer K) i cc mix f (G : logger L) p X y e' X' g,
  library_discovery L rngof D k a /\ shipped O i /\ steady (mfilter mix) /\ table 1 X y /\ fit p 0 false X y (unfitted D (shipped_composition L rngof O i cc mix f) G) = (Ok tt, e') /\ is_error e' = false /\ (exists b, elitist e' = Some (Learned b) /\ In true (ebits b)) /\ width_of 2 X' /\ X' <> [] /\ predict e' X' g = (Ok (zeros X'), g).
Proof.
  exists ML, tapes, es1, (GivenClip None), (MaxError (Fin 1)), plain, ga_o, tt, arch1, mix1, small_error, silent, par1, dx, dyy, (plain_end es1 dx dyy par1), [[9; 9]; [8; 7]], flat.
  split; [exact es1_library|]. split; [constructor|]. split; [exact I|]. split; [exact dx_table|]. split; [apply plain_ended; vm_compute; reflexivity|]. split; [vm_compute; reflexivity|].
  split; [apply bits_elite; vm_compute; auto|].
  split; [repeat constructor|]. split; [discriminate|]. vm_compute. reflexivity.
Qed.
Lemma columns_missing : exists (L : learner) rngof (D : discovery L) k a K (O : optimizer K) i cc mix f (G : logger L) p X y e' X' g,
  library_discovery L rngof D k a /\ shipped O i /\ steady (mfilter mix) /\ table 2 X y /\ fit p 0 false X y (unfitted D (shipped_composition L rngof O i cc mix f) G) = (Ok tt, e') /\ is_error e' = false /\ (exists b, elitist e' = Some (Learned b) /\ In true (ebits b)) /\ width_of 1 X' /\ X' <> [] /\ predict e' X' g = (Ok (zeros X'), g).
Proof.
  exists ML, tapes, es1, (GivenClip None), (MaxError (Fin 1)), plain, ga_o, tt, arch1, mix1, small_error, silent, par1, wx, wy, (plain_end es1 wx wy par1), [[9]; [8]], flat.
  split; [exact es1_library|]. split; [constructor|]. split; [exact I|]. split; [exact wx_table|]. split; [apply plain_ended; vm_compute; reflexivity|]. split; [vm_compute; reflexivity|].
  split; [apply bits_elite; vm_compute; auto|].
  split; [repeat constructor|]. split; [discriminate|]. vm_compute. reflexivity.
Qed.
Lemma any_width_after_error : exists (L : learner) rngof (D : discovery L) k a K (O : optimizer K) i cc mix f (G : logger L) p X y e',
  library_discovery L rngof D k a /\ shipped O i /\ table 2 X y /\ fit p 0 false X y (unfitted D (shipped_composition L rngof O i cc mix f) G) = (Ok tt, e') /\ is_error e' = true /\ forall d X' g, d <> 0%nat -> width_of d X' -> X' <> [] -> predict e' X' g = (Ok (zeros X'), g).
Proof.
  exists ML, tapes, (rs1 (SquaredError true)), (GivenClip None), (MaxError (Fin 1)), plain, ga_o, tt, arch1, mix1, small_error, silent, par_i, wx, wy, (plain_end (rs1 (SquaredError true)) wx wy par_i).
  split; [exact rs1_library|]. split; [constructor|]. split; [exact wx_table|]. split; [apply plain_ended; vm_compute; reflexivity|]. split; [vm_compute; reflexivity|].
  intros d X' g Hd HW HN. apply predict_zeros; [vm_compute; reflexivity|vm_compute; reflexivity|]. exists d. auto.
Qed.
