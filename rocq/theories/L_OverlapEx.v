(* The statements of C70 on states that programs can build, and examples. *)
From Coq Require Import Lia Lqa Qminmax.
From Verif Require Import PyNum PyList PyMon PyRng PyStat L_Num M_Matching S_Matching M_Rule L_RuleProps M_Mixing L_MixingProps M_Solution S_Solution L_Safe L_SafeFit L_HeapProps M_Composition S_Composition
  L_GA L_GAProps S_GenomeOps M_Aco S_Aco L_Aco L_AcoProps S_Swarm L_SwarmProps S_Overlap L_Overlap L_OverlapProps.

Lemma built_aco_step {L} (E : env L) B tau0 ok c pop p (s : hst plain) pop' p' s' : builder_ok B tau0 ok -> never_nan E -> built s -> sized_pop E s pop ->
  ok (fun _ => True) (length (epool E)) p -> aco_step B c E (pop, p) s = (Ok (pop', p'), s') ->
  pop' = pop /\ Forall (honest E s') pop /\ exists best marks, fittest_k s' (a_best c) pop best /\
    Forall2 (fun r m => exists bits a, shows s' r bits (Some a) /\ m = (bits, nmul (sfitness a) (Fin (a_c c)))) best marks /\
    p' = ph_map B (nclip (Fin (a_min c)) (Fin (a_max c)))
      (fold_left (fun q m => ph_update B q (fst m) (snd m)) marks (ph_map B (nmul (Fin (1 - a_evap c))) p)).
Proof.
  intros HB HN HBt HP HO H. pose proof (safe_aco_marks E nobody B tau0 ok c pop p s HB (inv_nobody s (built_wf _ HBt)) (sized_good E s pop HP) HO) as HS.
  unfold safe in HS. rewrite H in HS. destruct HS as [_ (H1 & H2 & best & marks & H3 & H4 & H5)]. cbn [fst snd] in *. split; auto. split; auto.
  exists best, marks. split; [apply H3, (no_nan_fits E); auto|]. auto.
Qed.
Lemma binary_iteration {L} A b (E : env L) c pop p (s : hst plain) pop' p' s' : never_nan E -> built s -> sized_pop E s pop -> length p = length (epool E) ->
  aco_step (Binary A b) c E (pop, p) s = (Ok (pop', p'), s') ->
  pop' = pop /\ Forall (honest E s') pop /\ exists best marks, fittest_k s' (a_best c) pop best /\
    Forall2 (fun r m => exists bits a, shows s' r bits (Some a) /\ m = (bits, nmul (sfitness a) (Fin (a_c c)))) best marks /\
    p' = ph_map (Binary A b) (nclip (Fin (a_min c)) (Fin (a_max c)))
      (fold_left (fun q m => bin_update q (fst m) (snd m)) marks (ph_map (Binary A b) (nmul (Fin (1 - a_evap c))) p)).
Proof.
  intros HN HB HP HL H. apply (built_aco_step E (Binary A b) (b_tau0 b) pairs_for c pop p s pop' p' s' (binary_ok A b)); auto.
  split; auto. apply Forall_forall. auto.
Qed.
Lemma complete_iteration {L} A b partial (E : env L) c pop p (s : hst plain) pop' p' s' : never_nan E -> built s -> sized_pop E s pop ->
  square_for (fun _ => True) (length (epool E)) p -> aco_step (Complete A b partial) c E (pop, p) s = (Ok (pop', p'), s') ->
  pop' = pop /\ Forall (honest E s') pop /\ exists best marks, fittest_k s' (a_best c) pop best /\
    Forall2 (fun r m => exists bits a, shows s' r bits (Some a) /\ m = (bits, nmul (sfitness a) (Fin (a_c c)))) best marks /\
    p' = ph_map (Complete A b partial) (nclip (Fin (a_min c)) (Fin (a_max c)))
      (fold_left (fun q m => com_update q (fst m) (snd m)) marks (ph_map (Complete A b partial) (nmul (Fin (1 - a_evap c))) p)).
Proof.
  intros HN HB HP HL H. apply (built_aco_step E (Complete A b partial) (b_tau0 b) square_for c pop p s pop' p' s' (complete_ok A b partial)); auto.
Qed.
Lemma binary_cells p g d i t : nth_error p i = Some t -> length g = length p ->
  (nth_error g i = Some true -> exists t', nth_error (bin_update p g d) i = Some t' /\ fst t' = nadd (fst t) (nmul (Fin 0) d) /\ snd t' = nadd (snd t) (nmul (Fin 1) d)) /\
  (nth_error g i = Some false -> exists t', nth_error (bin_update p g d) i = Some t' /\ fst t' = nadd (fst t) (nmul (Fin 1) d) /\ snd t' = nadd (snd t) (nmul (Fin 0) d)).
Proof.
  intros Hp HL. unfold bin_update. revert g HL i Hp. induction p as [|t0 p IH]; intros [|v g] HL [|i] Hp; cbn in *; try discriminate.
  - inversion Hp; subst. split; intros H; inversion H; subst; eexists; split; try reflexivity; cbn; auto.
  - apply IH; auto.
Qed.

Lemma share_of {L} (a b : rule L) : ordered a -> ordered b -> same_dims (cond a) (cond b) ->
  exists s, share a b s /\ share b a s /\ 0 <= s <= 1 /\ (s == 1 <-> lies_within (cond a) (cond b) \/ lies_within (cond b) (cond a)).
Proof.
  intros Ha Hb HD. destruct (share_spec a b Ha Hb HD) as (s & H1 & H2 & H3 & _). exists s. split; auto. split; [apply share_sym; auto|auto].
Qed.
Lemma share_volume {L} (a b : rule L) m : ordered a -> ordered b -> same_dims (cond a) (cond b) -> proper m -> common m (cond a) (cond b) ->
  share a b (box_volume m / Qmin (box_volume (cond a)) (box_volume (cond b))).
Proof.
  intros Ha Hb HD HP HC. destruct (share_spec a b Ha Hb HD) as (s & (x & y & H1 & X1 & X2) & _ & _ & H & _). specialize (H m HP HC).
  assert (Hm : 0 < Qmin (box_volume (cond a)) (box_volume (cond b))) by (apply Q.min_glb_lt; apply solid_volume; [apply Ha|apply Hb]).
  assert (HE : box_volume m / Qmin (box_volume (cond a)) (box_volume (cond b)) == s) by (rewrite <- H; field; lra).
  exists x, y. split; auto. rewrite HE. auto.
Qed.
Lemma share_apart {L} (a b : rule L) : ordered a -> ordered b -> same_dims (cond a) (cond b) -> (forall x, ~ (covers (cond a) x /\ covers (cond b) x)) -> share a b 0.
Proof.
  intros Ha Hb HD HN. destruct (share_spec a b Ha Hb HD) as (s & (x & y & H1 & X1 & X2) & _ & _ & _ & H). specialize (H HN). exists x, y. rewrite <- H. auto.
Qed.
Lemma nested_never {L} A b partial (pool : list (rule L)) fs p j route (s : hst plain) : root_ok A b -> measured pool fs -> varied fs -> boxes pool ->
  square_for positive (length pool) p -> (j < length pool)%nat -> route <> [] -> Forall (fun i => (i < length pool)%nat) route ->
  Forall (nested pool j) (looked_at partial route) -> 0 < fst (random (hrng s)) ->
  exists eta s', relative_fitness pool = Ok eta /\ com_visit A b partial p pool eta route j s = (Ok route, s').
Proof.
  intros HR HM HV HB HS Hj HN HRt HX HU. destruct (complete_next A b partial pool fs p j route HR HM HV HB HS Hj HN HRt) as (eta & q & H1 & H2 & _ & H4).
  destruct (visit_skips A b partial pool p eta route j q s H2 (proj2 H4 HX) HU) as (s' & H). eauto.
Qed.

(* ----- examples ----- *)
Definition three_boxes : list (rule mean_learner) := [fitted_rule 0 4 1 1 1; fitted_rule 1 2 1 2 1; fitted_rule 3 6 1 2 1].
Definition centered (c w : Q) : rule mean_learner :=
  @mkRule mean_learner (mkMatching CenterSpread [(c, w)]) (Some 1) (Some (mkAtts true (Fin 1) (Fin 1) 1 [1] [true])).
Lemma plain_root b : root_ok plain_math b.
Proof.
  split; cbn; intros.
  - exists x. auto. - exists x. auto. - inversion H0; inversion H1; subst. lra.
  - exists x. auto. - exists x. auto. - inversion H0; inversion H1; subst. lra.
Qed.
Lemma ordered_1 (l h e f m : Q) : l < h -> ordered (fitted_rule l h e f m).
Proof. intros H. split; [reflexivity|]. constructor; [exact H|constructor]. Qed.
Lemma three_ok : boxes three_boxes /\ measured three_boxes [1; 2; 2] /\ varied [1; 2; 2].
Proof.
  split; [|split; [repeat constructor|exists 1, 2; split; [left; reflexivity|split; [right; left; reflexivity|reflexivity]]]].
  split; [repeat constructor|]. intros a b Ha Hb.
  assert (HL : forall r, In r three_boxes -> length (bnd (cond r)) = 1%nat) by (intros r [<-|[<-|[<-|[]]]]; reflexivity).
  unfold same_dims. rewrite (HL a Ha), (HL b Hb). reflexivity.
Qed.
Lemma second_within_first : lies_within (cond (fitted_rule 1 2 1 2 1)) (cond (fitted_rule 0 4 1 1 1)).
Proof. apply ends_within. constructor; [cbn; split; lra|constructor]. Qed.
Lemma third_sticks_out : ~ nested three_boxes 2 0.
Proof.
  intros (ri & rj & H1 & H2 & H). inversion H1; inversion H2; subst. destruct H as [H|H].
  - assert (HC : covers (cond (fitted_rule 3 6 1 2 1)) [0]) by (apply H; constructor; [cbn; split; lra|constructor]). inversion HC as [|? ? ? ? HX]; subst. cbn in HX. lra.
  - assert (HC : covers (cond (fitted_rule 0 4 1 1 1)) [6]) by (apply H; constructor; [cbn; split; lra|constructor]). inversion HC as [|? ? ? ? HX]; subst. cbn in HX. lra.
Qed.
(* center and spread are read as if they were limits *)
Lemma center_overlap : exists (a b : rule mean_learner) s, mt (cond a) = CenterSpread /\ mt (cond b) = CenterSpread /\ solid (cond a) /\ solid (cond b) /\
  same_dims (cond a) (cond b) /\ lies_within (cond b) (cond a) /\ share a b s /\ s < 0.
Proof.
  exists (centered 0 (1#2)), (centered (1#4) (1#8)), (-(1#2)). split; [reflexivity|]. split; [reflexivity|].
  split; [constructor; [reflexivity|constructor]|]. split; [constructor; [reflexivity|constructor]|]. split; [reflexivity|].
  split; [apply ends_within; constructor; [cbn; split; lra|constructor]|]. split; [|reflexivity].
  eexists _, _. split; [vm_compute; reflexivity|]. split; reflexivity.
Qed.
(* a box without extent in one dimension *)
Lemma flat_overlap : exists a : rule mean_learner, mt (cond a) = OrderedBound /\ proper (cond a) /\ bounds_overlap a a = (NaN, NaN).
Proof.
  exists (fitted_rule 1 1 1 1 1). split; [reflexivity|]. split; [constructor; [apply Qle_refl|constructor]|]. vm_compute. reflexivity.
Qed.
