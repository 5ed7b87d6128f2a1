(* Novelty search in other units. *)
From Coq Require Import Lia.
From Verif Require Import PyNum PyList PyMon PyRng PyStat L_Num L_List M_Matching M_Rule M_RuleGen M_Mixing M_GenomeOps M_Discovery M_Novelty M_Solution M_Composition M_Fit M_Shipped M_Logging L_Invariance S_Units L_Units L_UnitsDisc L_UnitsComp L_Tandem L_UnitsFit L_UnitsShip.

Lemma picked_units a sh : forall (mask : list bool) x x' y y', same_bounds a sh x x' -> same_bounds a sh y y' ->
  alike_res (same_bounds a sh) (rmap (fun i => of_option IndexError (nth_error (if nth i mask false then x else y) i)) (seq 0 (length sh))) (rmap (fun i => of_option IndexError (nth_error (if nth i mask false then x' else y') i)) (seq 0 (length sh))).
Proof.
  induction sh as [|s ss IH]; intros m x x' y y' Hx Hy; [constructor|].
  inversion Hx as [|? b b' ? bs bs' H1 H2 E1 E2 E3]; subst. inversion Hy as [|? d d' ? ds ds' H3 H4 E4 E5 E6]; subst. cbn [length seq rmap]. rewrite <- seq_shift.
  assert (EM : forall B (u v : list B) u0 v0 (l : list nat), rmap (fun i => of_option IndexError (nth_error (if nth i m false then u0 :: u else v0 :: v) i)) (map S l) = rmap (fun i => of_option IndexError (nth_error (if nth i (tl m) false then u else v) i)) l).
  { intros B u v u0 v0 l. induction l as [|i l IHl]; [reflexivity|]. cbn [map rmap]. rewrite IHl. f_equal. destruct m as [|f m]; cbn [nth tl]; [destruct i|]; try destruct (nth i m false); reflexivity. }
  rewrite !EM. specialize (IH (tl m) bs bs' ds ds' H2 H4). destruct (nth 0 m false); cbn [nth_error of_option rbind]; destruct (rmap _ (seq 0 (length ss))) as [o|e], (rmap (fun i => of_option IndexError (nth_error (if nth i (tl m) false then bs' else ds') i)) (seq 0 (length ss))) as [o'|e']; cbn in *; try contradiction; try exact IH; constructor; assumption.
Qed.

Section Ns.
Variables (a : Q) (shifts : list Q).
Hypothesis Ha : 0 < a.
Variables L L' : learner.
Hypothesis HU : unitless a shifts L L'.
Notation point := (same_point a shifts). Notation rbox := (rescaled_box a shifts). Notation rrule := (rescaled_rule a shifts L L'). Notation rcell := (rescaled_cell a shifts L L').
Record twin (s : nst L) (s' : nst L') : Prop := { tw_cells : Forall2 rcell (cells s) (cells s'); tw_arch : arch s = arch s'; tw_gen : gen s = gen s' }.
Notation T := (tandem twin).

Lemma on_rng_units {A B} (R : A -> B -> Prop) (m : St rng A) m' : alike R m m' -> T R (on_rng L m) (on_rng L' m').
Proof.
  intros H s s' [T1 T2 T3]. unfold on_rng. rewrite <- T3. specialize (H (gen s)). destruct (m (gen s)) as [[x|e] g], (m' (gen s)) as [[x'|e'] g']; try contradiction; destruct H as [<- H]; (split; [constructor; cbn; auto|exact H]).
Qed.
Lemma cell_units i : T rcell (cell_of L i) (cell_of L' i).
Proof.
  intros s s' HT. unfold cell_of. pose proof (nth_error_units rcell _ _ i (tw_cells _ _ HT)) as H. destruct (nth_error (cells s) i), (nth_error (cells s') i); cbn; try contradiction; auto.
Qed.
Lemma update_units {A B} (R : A -> B -> Prop) l l' i x x' : Forall2 R l l' -> R x x' -> Forall2 R (update l i x) (update l' i x').
Proof. intros H Hx. revert i. induction H as [|z z' l l' Hz HF IH]; intros [|i]; cbn; constructor; auto. Qed.
Lemma set_units i c c' : rcell c c' -> T eq (set_cell L i c) (set_cell L' i c').
Proof. intros Hc s s' [T1 T2 T3]. unfold set_cell. split; [|reflexivity]. constructor; cbn; [apply update_units; assumption|exact T2|exact T3]. Qed.
Lemma alloc_units r r' : rrule r r' -> T eq (alloc L r) (alloc L' r').
Proof.
  intros Hr s s' [T1 T2 T3]. unfold alloc. split; [|apply (L_List.Forall2_len _ _ _ T1)]. constructor; cbn; [|exact T2|exact T3]. apply Forall2_app; [exact T1|]. constructor; [|constructor]. constructor; cbn; auto.
Qed.
Lemma archive_units : T eq (get_archive L) (get_archive L').
Proof. intros s s' HT. unfold get_archive. split; [exact HT|apply (tw_arch _ _ HT)]. Qed.
Lemma extend_units l : T eq (extend_archive L l) (extend_archive L' l).
Proof. intros s s' [T1 T2 T3]. unfold extend_archive. split; [|reflexivity]. constructor; cbn; [exact T1|congruence|exact T3]. Qed.
Lemma cell_marks c c' : rcell c c' -> cdist c = cdist c' /\ cidx c = cidx c' /\ cscore c = cscore c' /\ att (crule c) = att (crule c').
Proof. intros [H (H1 & H2 & H3)]. pose proof (rr_atts _ _ _ _ _ _ H). auto. Qed.
Ltac cellof := eapply tan_bind; [apply cell_units|]; let c := fresh "c" in let c' := fresh "c'" in let Hc := fresh "Hc" in intros c c' Hc; let M1 := fresh "M1" in let M2 := fresh "M2" in let M3 := fresh "M3" in let M4 := fresh "M4" in destruct (cell_marks c c' Hc) as (M1 & M2 & M3 & M4).
Lemma put_units i c c' d x s : rcell c c' -> T eq (set_cell L i (mkCell (crule c) d x s)) (set_cell L' i (mkCell (crule c') d x s)).
Proof. intros Hc. apply set_units. constructor; [apply (rc_rule _ _ _ _ _ _ Hc)|auto]. Qed.
Lemma push_dist_units i q : T eq (push_dist L i q) (push_dist L' i q).
Proof. unfold push_dist. cellof. rewrite <- M1, <- M2, <- M3. destruct (cdist c); [|apply tan_raise]. apply put_units. exact Hc. Qed.
Lemma atts_units {A} (f : atts -> A) i : T eq (let* c := cell_of L i in let* t := lift (get_att L (crule c)) in ret (f t)) (let* c := cell_of L' i in let* t := lift (get_att L' (crule c)) in ret (f t)).
Proof. cellof. unfold get_att. rewrite <- M4. eapply tan_bind; [apply tan_value|]. intros t t' <-. apply tan_ret. reflexivity. Qed.
Lemma matches_units i : T eq (matches_of L i) (matches_of L' i). Proof. exact (atts_units M_Rule.match_set i). Qed.
Lemma nfitness_units i : T eq (M_Novelty.fitness_of L i) (M_Novelty.fitness_of L' i). Proof. exact (atts_units M_Rule.fitness i). Qed.
Lemma experience_units i : T eq (experience_of L i) (experience_of L' i). Proof. exact (atts_units M_Rule.experience i). Qed.
Lemma nscore_units i : T eq (score_of L i) (score_of L' i).
Proof. unfold score_of. cellof. rewrite <- M3. apply tan_value. Qed.
Ltac tn :=
  cbv zeta;
  lazymatch goal with
  | |- tandem twin eq (bind _ _) _ => eapply tan_bind with (R := eq); [tn|intros ? ? <-; tn]
  | |- tandem twin eq (ret _) _ => apply tan_ret; reflexivity
  | |- tandem twin eq (raise _) _ => apply tan_raise
  | |- tandem twin eq (lift _) _ => apply tan_value
  | |- tandem twin eq (matches_of _ _) _ => apply matches_units
  | |- tandem twin eq (M_Novelty.fitness_of _ _) _ => apply nfitness_units
  | |- tandem twin eq (experience_of _ _) _ => apply experience_units
  | |- tandem twin eq (score_of _ _) _ => apply nscore_units
  | |- tandem twin eq (push_dist _ _ _) _ => apply push_dist_units
  | |- tandem twin eq (get_archive _) _ => apply archive_units
  | |- tandem twin eq (extend_archive _ _) _ => apply extend_units
  | |- tandem twin eq (on_rng _ _) _ => apply on_rng_units, alike_same
  | |- tandem twin eq (mmap _ _) _ => apply tan_each; intros ?; tn
  | |- tandem twin eq (miter _ _) _ => apply tan_iter; intros ?; tn
  | |- tandem twin eq (if ?b then _ else _) _ => destruct b; tn
  | |- tandem twin eq (match ?b with _ => _ end) _ => destruct b; tn
  | |- _ => idtac
  end.
Lemma filter_rules_units t rs : T eq (filter_rules t rs) (filter_rules t rs).
Proof. unfold filter_rules. tn. Qed.
Lemma competition_units t i local : T eq (local_competition t i local) (local_competition t i local).
Proof. unfold local_competition. tn. Qed.
Lemma compare_units i j : T eq (compare_with L i j) (compare_with L' i j).
Proof. unfold compare_with. tn. Qed.
Lemma mark_units rs : forall local, T eq (mark (L := L) local rs) (mark (L := L') local rs).
Proof.
  induction rs as [|i rs IH]; intros local; cbn [mark]; [tn|]. cellof. unfold needs_distances. rewrite <- M2. eapply tan_bind with (R := eq); [|intros _ _ _; apply IH].
  assert (HT : T eq (set_cell L i (mkCell (crule c) (Some []) (cidx c) (cscore c)) ;; miter (compare_with L i) local ;; push_dist L i 0 ;; let* c' := cell_of L i in set_cell L i (mkCell (crule c') (cdist c') (Some (length local)) (cscore c')))
    (set_cell L' i (mkCell (crule c') (Some []) (cidx c) (cscore c')) ;; miter (compare_with L' i) local ;; push_dist L' i 0 ;; let* c' := cell_of L' i in set_cell L' i (mkCell (crule c') (cdist c') (Some (length local)) (cscore c')))).
  { rewrite <- M3. eapply tan_bind; [apply put_units; exact Hc|]. intros _ _ _. eapply tan_bind; [apply tan_iter; intros j; apply compare_units|]. intros _ _ _. eapply tan_bind; [apply push_dist_units|]. intros _ _ _. clear c c' Hc M1 M2 M3 M4. cellof. rewrite <- M1, <- M3. apply put_units. exact Hc. }
  destruct (cidx c) as [k|]; [destruct (Nat.ltb _ k); [exact HT|tn]|exact HT].
Qed.
Lemma base_units b k i : T eq (base_score L b k i) (base_score L' b k i).
Proof. unfold base_score. cellof. rewrite <- M1. tn. Qed.
Lemma score_rule_units b t k local i : T eq (score_rule L b t k local i) (score_rule L' b t k local i).
Proof.
  unfold score_rule. eapply tan_bind; [apply competition_units|]. intros lc lc' <-. eapply tan_bind; [apply base_units|]. intros s s' <-. cellof. rewrite <- M1, <- M2. apply put_units. exact Hc.
Qed.
Lemma novelty_score_units b t k rs : T eq (novelty_score (L := L) b t k rs) (novelty_score (L := L') b t k rs).
Proof.
  unfold novelty_score. eapply tan_bind; [apply archive_units|]. intros ar ar' <-. eapply tan_bind; [apply filter_rules_units|]. intros fl fl' <-. eapply tan_bind; [apply mark_units|]. intros l l' <-. eapply tan_bind; [apply tan_iter; intros i; apply score_rule_units|]. intros _ _ _. tn.
Qed.
Lemma pareto_units rs : T eq (pareto_front (L := L) rs) (pareto_front (L := L') rs).
Proof. unfold pareto_front, with_key. tn. Qed.
Lemma novelty_units b t k rs : T eq (novelty (L := L) b t k rs) (novelty (L := L') b t k rs).
Proof.
  unfold novelty. destruct b; try apply novelty_score_units.
  - eapply tan_bind with (R := eq); [tn|]. intros fs fs' <-. apply novelty_score_units.
  - eapply tan_bind; [apply novelty_score_units|]. intros o o' <-. apply pareto_units.
Qed.
Lemma n_best_units rs n : T eq (n_best (L := L) rs n) (n_best (L := L') rs n).
Proof. unfold n_best, with_key. tn. Qed.
Lemma archive_rules_units k rs n : T eq (archive_rules (L := L) k rs n) (archive_rules (L := L') k rs n).
Proof.
  unfold archive_rules. destruct k; [|tn|tn]. eapply tan_bind; [apply n_best_units|]. intros o o' <-. tn.
Qed.

Section Run.
Variables (D : denv L) (D' : denv L') (c c' : nscfg).
Hypothesis HD : rescaled_problem a shifts L L' D D'.
Hypothesis HS : rescaled_settings a shifts (ns_d c) (ns_d c').
Hypothesis HM : rescaled_mutation a (ns_mut c) (ns_mut c').
Hypothesis Hsize : ns_iter c = ns_iter c' /\ ns_mu c = ns_mu c' /\ ns_lambda c = ns_lambda c' /\ ns_roh c = ns_roh c' /\ ns_elitists c = ns_elitists c' /\ ns_rate c = ns_rate c' /\ ns_sel c = ns_sel c'.
Hypothesis Hnov : ns_use_pop c = ns_use_pop c' /\ ns_calc c = ns_calc c' /\ ns_type c = ns_type c' /\ ns_archive c = ns_archive c' /\ ns_k c = ns_k c'.
Lemma selection_units rs n roh : T eq (rule_selection (L := L) c rs n roh) (rule_selection (L := L') c' rs n roh).
Proof.
  destruct Hnov as (N1 & N2 & N3 & N4 & N5). unfold rule_selection. rewrite <- N1, <- N2, <- N3, <- N4, <- N5. eapply tan_bind; [apply novelty_units|]. intros o o' <-. eapply tan_bind with (R := eq); [destruct (ns_use_pop c); [tn|apply archive_rules_units]|]. intros o1 o1' <-. apply n_best_units.
Qed.
Lemma population_ns : T eq (M_Novelty.init_population L c D) (M_Novelty.init_population L' c' D').
Proof.
  unfold M_Novelty.init_population. rewrite <- (set_origin _ _ _ _ HS), <- (proj1 (proj2 Hsize)). eapply tan_bind; [apply on_rng_units, (origins_units a shifts Ha L L' D D' HD)|]. intros xs xs' Hx. eapply tan_weak; [apply eq_Forall2|]. apply (tan_mmap twin point eq); [|exact Hx].
  intros x x' Hp. eapply tan_bind; [apply on_rng_units, (new_units a shifts Ha L L' HU D D' HD _ _ HS); exact Hp|]. intros r r' Hr. apply alloc_units. exact Hr.
Qed.
Notation rpair := (fun (p : nat * rule L) (p' : nat * rule L') => fst p = fst p' /\ rrule (snd p) (snd p')).
Lemma listed_units ids : T (Forall2 rpair) (mmap (fun i => let* x := cell_of L i in ret (i, crule x)) ids) (mmap (fun i => let* x := cell_of L' i in ret (i, crule x)) ids).
Proof. apply (tan_mmap twin eq); [|apply Forall2_eq]. intros i i' <-. cellof. apply tan_ret. split; [reflexivity|apply (rc_rule _ _ _ _ _ _ Hc)]. Qed.
Lemma fst_pairs ps ps' : Forall2 rpair ps ps' -> map fst ps = map fst ps'.
Proof. apply map_same. intros x y [H _]. exact H. Qed.
Lemma parents_units pop : T eq (select_parents L c pop) (select_parents L' c' pop).
Proof.
  destruct Hsize as (S1 & S2 & S3 & S4 & S5 & S6 & S7). unfold select_parents. rewrite <- S3, <- S7. eapply tan_bind; [apply listed_units|]. intros rs rs' HR. eapply tan_bind with (R := Forall2 rpair).
  - apply on_rng_units. apply select_units; [intros x x' [_ Hx]; apply (rfit_units a shifts); exact Hx|intros x x' [_ Hx]; apply (rerr_units a shifts); exact Hx| |intros x x' z z' [-> _] [-> _]; reflexivity|exact HR].
    intros x x' z z' [_ Hx] [_ Hz]. unfold rule_volume. symmetry. apply (volume_less a shifts Ha); [apply (rr_box _ _ _ _ _ _ Hx)|apply (rr_box _ _ _ _ _ _ Hz)].
  - intros ps ps' HP. rewrite <- (fst_pairs _ _ HP). tn.
Qed.
Lemma crossover_units rate m m' n n' : rbox m m' -> rbox n n' -> alike (Forall2 rbox) (M_Novelty.crossover rate (d_type (ns_d c)) m n) (M_Novelty.crossover rate (d_type (ns_d c')) m' n').
Proof.
  intros Hm Hn. unfold M_Novelty.crossover. rewrite (set_type _ _ _ _ HS), (set_type' _ _ _ _ HS). eapply alike_bind; [apply alike_same|]. intros u u' <-. destruct (qlt u rate); [|apply alike_ret; constructor; [exact Hm|constructor; [exact Hn|constructor]]].
  destruct Hm as (A1 & A2 & A3), Hn as (B1 & B2 & B3). cbn [uniform_crossover]. cbv zeta. destruct (each3_len _ _ _ _ A3) as [E1 E2]. rewrite E1, E2. eapply alike_bind; [apply alike_same|]. intros mask mask' <-.
  eapply alike_bind; [apply alike_lift, (picked_units a shifts mask _ _ _ _ A3 B3)|]. intros p p' Hp. eapply alike_bind; [apply alike_lift, (picked_units a shifts mask _ _ _ _ B3 A3)|]. intros q q' Hq.
  apply alike_ret. constructor; [split; [exact A1|split; [exact A2|exact Hp]]|]. constructor; [split; [exact B1|split; [exact B2|exact Hq]]|constructor].
Qed.
Lemma mutant_fresh m m' : rbox m m' -> alike rrule (mutant (ns_d c) (ns_mut c) D (fresh_rule L m)) (mutant (ns_d c') (ns_mut c') D' (fresh_rule L' m')).
Proof. intros H. apply (mutant_units a shifts Ha L L' HU D D' HD _ _ HS); [exact HM|]. constructor; [exact H|exact I|reflexivity]. Qed.
Lemma children_units ps : T eq (make_children L c D ps) (make_children L' c' D' ps).
Proof.
  destruct Hsize as (S1 & S2 & S3 & S4 & S5 & S6 & S7). unfold make_children. rewrite <- S6. eapply tan_bind with (R := Forall2 (Forall2 rbox)).
  - apply (tan_mmap twin eq); [|apply Forall2_eq]. intros p p' <-. eapply tan_bind; [apply cell_units|]. intros x x' Hx. eapply tan_bind; [apply cell_units|]. intros z z' Hz. apply on_rng_units. apply crossover_units; [apply (rr_box _ _ _ _ _ _ (rc_rule _ _ _ _ _ _ Hx))|apply (rr_box _ _ _ _ _ _ (rc_rule _ _ _ _ _ _ Hz))].
  - intros cs cs' HC. eapply tan_weak; [apply eq_Forall2|]. apply (tan_mmap twin rbox eq).
    + intros m m' Hm. eapply tan_bind; [apply on_rng_units, mutant_fresh; exact Hm|]. intros r r' Hr. apply alloc_units. exact Hr.
    + induction HC as [|l l' cs cs' Hl HC IH]; cbn; [constructor|]. apply Forall2_app; assumption.
Qed.
Lemma valid_children_units ids : T eq (valid_children L ids) (valid_children L' ids).
Proof.
  unfold valid_children. eapply tan_bind; [apply listed_units|]. intros rs rs' HR. apply tan_ret. apply fst_pairs. apply Forall2_filter; [|exact HR]. intros x y [_ H]. apply (valid_units a shifts). exact H.
Qed.
Lemma ns_loop_units n : forall pop best, T eq (ns_loop c D n pop best) (ns_loop c' D' n pop best).
Proof.
  destruct Hsize as (S1 & S2 & S3 & S4 & S5 & S6 & S7). induction n as [|n IH]; intros pop best; cbn [ns_loop]; [tn|]. eapply tan_bind; [apply parents_units|]. intros ps ps' <-. destruct ps as [|p ps]; [apply IH|].
  eapply tan_bind; [apply children_units|]. intros ch ch' <-. eapply tan_bind; [apply valid_children_units|]. intros v v' <-. destruct v as [|v0 v]; [apply IH|]. rewrite <- S2, <- S4, <- S5. eapply tan_bind; [apply selection_units|]. intros bc bc' <-. eapply tan_bind; [apply selection_units|]. intros bp bp' <-. apply IH.
Qed.
Lemma accepted_units ac y cs cs' : Forall2 rcell cs cs' -> alike_res (Forall2 rcell) (accepted L ac y cs) (accepted L' ac y cs').
Proof.
  induction 1 as [|x x' cs cs' H HR IH]; cbn [accepted]; [constructor|]. rewrite (accept_units a shifts L L' ac _ _ y (rc_rule _ _ _ _ _ _ H)). destruct (accept ac (crule x') y) as [ok|e]; cbn [rbind]; [|reflexivity].
  destruct (accepted L ac y cs), (accepted L' ac y cs'); cbn in *; try contradiction; [|exact IH]. destruct ok; [constructor; assumption|exact IH].
Qed.
Lemma ns_run_units n : T (Forall2 rcell) (ns_run c D n) (ns_run c' D' n).
Proof.
  unfold ns_run. rewrite <- (proj1 Hsize). eapply tan_bind; [apply population_ns|]. intros pop pop' <-. eapply tan_bind; [apply ns_loop_units|]. intros best best' <-. eapply tan_bind with (R := Forall2 rcell).
  - apply (tan_mmap twin eq); [|apply Forall2_eq]. intros i i' <-. cellof. apply tan_ret. constructor; [apply (rc_rule _ _ _ _ _ _ Hc)|cbn; auto].
  - intros out out' HO. apply tan_lift. rewrite <- (set_accept _ _ _ _ HS), <- (rp_y _ _ _ _ _ _ HD). apply accepted_units. exact HO.
Qed.
End Run.
Lemma ns_units c c' X X' y pool pool' elite mix n : rescaled_settings a shifts (ns_d c) (ns_d c') -> rescaled_mutation a (ns_mut c) (ns_mut c') ->
  (ns_iter c = ns_iter c' /\ ns_mu c = ns_mu c' /\ ns_lambda c = ns_lambda c' /\ ns_roh c = ns_roh c' /\ ns_elitists c = ns_elitists c' /\ ns_rate c = ns_rate c' /\ ns_sel c = ns_sel c') ->
  (ns_use_pop c = ns_use_pop c' /\ ns_calc c = ns_calc c' /\ ns_type c = ns_type c' /\ ns_archive c = ns_archive c' /\ ns_k c = ns_k c') ->
  Forall2 point X X' -> Forall2 rcell pool pool' -> alike (Forall2 rcell) (ns_optimize c X y pool elite mix n) (ns_optimize c' X' y pool' elite mix n).
Proof.
  intros HS HM H1 H2 HX HP g. unfold ns_optimize. rewrite <- (L_List.Forall2_len _ _ _ HP).
  assert (HD : rescaled_problem a shifts L L' (mkDenv X y (map crule pool) elite mix) (mkDenv X' y (map crule pool') elite mix)) by (constructor; cbn; auto; apply (Forall2_map rcell); [intros x x' Hx; apply (rc_rule _ _ _ _ _ _ Hx)|exact HP]).
  pose proof (ns_run_units _ _ c c' HD HS HM H1 H2 n (mkNst pool (seq 0 (length pool)) g) (mkNst pool' (seq 0 (length pool)) g)) as H. specialize (H (Build_twin (mkNst pool (seq 0 (length pool)) g) (mkNst pool' (seq 0 (length pool)) g) HP eq_refl eq_refl)).
  destruct (ns_run c _ _ _) as [[o|e] s], (ns_run c' _ _ _) as [[o'|e'] s']; try contradiction; destruct H as [[_ _ HG] H]; auto.
Qed.
End Ns.

Section NsShip.
Variables (a : Q) (shifts : list Q).
Hypothesis Ha : 0 < a.
Variables L L' : learner.
Hypothesis HU : unitless a shifts L L'.
Variable rngof : stream -> rng.
Notation point := (same_point a shifts). Notation rrule := (rescaled_rule a shifts L L'). Notation rcell := (rescaled_cell a shifts L L').
Definition ns_state (s : nscfg * list (cell L)) (s' : nscfg * list (cell L')) : Prop := let c := fst s in let c' := fst s' in
  rescaled_settings a shifts (ns_d c) (ns_d c') /\ rescaled_mutation a (ns_mut c) (ns_mut c') /\
  (ns_iter c = ns_iter c' /\ ns_mu c = ns_mu c' /\ ns_lambda c = ns_lambda c' /\ ns_roh c = ns_roh c' /\ ns_elitists c = ns_elitists c' /\ ns_rate c = ns_rate c' /\ ns_sel c = ns_sel c') /\
  (ns_use_pop c = ns_use_pop c' /\ ns_calc c = ns_calc c' /\ ns_type c = ns_type c' /\ ns_archive c = ns_archive c' /\ ns_k c = ns_k c') /\ Forall2 rcell (snd s) (snd s').
Lemma ns_new_units c c' k k' X X' : rescaled_ns a c c' -> rescaled_given a shifts k k' -> Forall2 point X X' -> alike_res ns_state (dnew (ns_discovery L rngof c k) X) (dnew (ns_discovery L' rngof c' k') X').
Proof.
  intros [E1 E2 E3 E4] HK HX. cbn [dnew ns_discovery]. pose proof (init_bounds_units a shifts Ha k k' X X' HK HX) as HB. unfold ns_new. pose proof E3 as (S1 & S2 & S3 & _). pose proof E4 as (N1 & N2 & N3 & N4 & N5). rewrite <- S3, <- N5. destruct (assert_ _) as [[]|x]; [|reflexivity]. cbn [rbind].
  destruct (init_bounds X k) as [b|x], (init_bounds X' k') as [b'|x']; cbn in HB; try contradiction; [|exact HB]. cbn. split; [apply settings_of; assumption|]. split; [exact E2|]. split; [exact E3|]. split; [exact E4|constructor].
Qed.
Lemma ns_run_ship c c' k k' X X' y pool pool' el el' n s d d' : Forall2 point X X' -> Forall2 rrule pool pool' -> paired (relite a shifts L L') el el' -> ns_state d d' ->
  let o := drun (ns_discovery L rngof c k) X y pool el n s d in let o' := drun (ns_discovery L' rngof c' k') X' y pool' el' n s d' in
  alike_res (Forall2 rrule) (fst o) (fst o') /\ fst (snd o) = fst (snd o') /\ ns_state (snd (snd o)) (snd (snd o')).
Proof.
  intros HX HP He HS. pose proof (elite_problem a shifts L L' X X' y [] [] el el' HX (Forall2_nil _) He) as HD. pose proof HS as (S1 & S2 & S3 & S4 & S5). cbn [drun ns_discovery]. cbv zeta. rewrite <- (rp_elite _ _ _ _ _ _ HD), <- (rp_mix _ _ _ _ _ _ HD).
  pose proof (ns_units a shifts Ha L L' HU (fst d) (fst d') X X' y (snd d) (snd d') (delite (discovery_env X y [] el)) (dmix (discovery_env X y [] el)) n S1 S2 S3 S4 HX S5 (rngof (sstream s))) as H.
  destruct (ns_optimize (fst d) _ _ _ _ _ _ _) as [[o|x] g], (ns_optimize (fst d') _ _ _ _ _ _ _) as [[o'|x'] g']; try contradiction; destruct H as [_ H]; cbn; [|split; [exact H|split; [reflexivity|exact HS]]].
  split; [|split; [reflexivity|]].
  - apply (Forall2_map rcell); [|exact H]. intros z z' Hz. apply (rc_rule _ _ _ _ _ _ Hz).
  - split; [exact S1|]. split; [exact S2|]. split; [exact S3|]. split; [exact S4|]. cbn. apply Forall2_app; assumption.
Qed.
Lemma ns_history {K : skind} (O : optimizer K) i cc mix f G G' (RL : lst G -> lst G' -> Prop) c c' k k' calls calls' : impartial O -> (forall X X' y, Forall2 point X X' -> rescaled_logger a shifts L L' X X' y G G' RL) ->
  rescaled_ns a c c' -> rescaled_given a shifts k k' -> Forall2 (same_call a shifts) calls calls' ->
  let e := after (ns_discovery L rngof c k) (shipped_composition L rngof O i cc mix f) G calls in
  let e' := after (ns_discovery L' rngof c' k') (shipped_composition L' rngof O i cc mix f) G' calls' in
  rescaled_estimator a shifts L L' e e' /\ paired RL (logs e) (logs e').
Proof.
  intros HO HG HE HK HC. apply (history a shifts Ha L L' rngof O i cc mix f HO G G' RL HG (ns_discovery L rngof c k) (ns_discovery L' rngof c' k') ns_state); [intros X X' HX; apply ns_new_units; assumption| |exact HC].
  intros X X' y pool pool' el el' n s d d' HX HP He HS. apply ns_run_ship; assumption.
Qed.
End NsShip.
