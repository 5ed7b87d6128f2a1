(* Every rule of a discovery has passed through its constraint. *)
From Coq Require Import Lia Qminmax.
From Verif Require Import PyNum PyList PyMon PyRng L_Num L_List L_Rng M_Matching S_Matching L_Matching M_Rule S_Rule M_RuleGen L_RuleGen M_Mixing M_GenomeOps M_Discovery S_Discovery L_Discovery L_DiscoveryProps L_Origin
  M_Novelty S_Novelty L_NoveltyRun L_SasProps M_Fit S_Fit L_FitInv M_Shipped S_Shipped L_ShippedFit S_Constrained.
From Verif Require Import L_MatchingProps.
From Coq Require Import Lqa.

Lemma constrain_mt k m : mt (constrain k m) = mt m.
Proof. destruct m as [t b], k; destruct t; reflexivity. Qed.
Lemma fitted_cond {L : learner} m X y (r : rule L) : fitted m X y = Ok r -> cond r = m.
Proof.
  unfold fitted. destruct (rule_fit L (fresh_rule L m) X y) as [[u|e] r0] eqn:E; [|discriminate]. intros H. injection H as <-. clear - E.
  unfold rule_fit in E. cbn [fresh_rule cond rmodel att] in E. destruct (match_call m X) as [ms|e]; [|discriminate].
  destruct (negb (existsb (fun b => b) ms)); [injection E as _ <-; reflexivity|]. cbv zeta in E. destruct (Nat.eqb (length y) (length X)); [|discriminate].
  unfold trained in E. injection E as _ <-. reflexivity.
Qed.
Lemma Forall_combine_same {A} (l : list A) (P : A * A -> Prop) : (forall a, P (a, a)) -> Forall P (combine l l).
Proof. intros H. induction l; cbn; constructor; auto. Qed.
Lemma init_rule_shape i t x g m g' : init_rule i t x g = (Ok m, g') -> mt m = t /\ length (bnd m) = length x /\ (t = OrderedBound -> proper m).
Proof.
  intros H. pose proof (init_rule_len _ _ _ _ _ _ H) as HL. unfold init_rule in H. destruct (M_RuleGen.init_bounds i t x g) as [[bs|e] g1] eqn:E; [|discriminate]. injection H as <- _.
  cbn [mt]. split; [reflexivity|]. split; [exact HL|]. intros ->. unfold proper. cbn [mt bnd]. clear HL. unfold M_RuleGen.init_bounds in E. destruct i as [|[s|s0 s1]|s].
  - injection E as <- _. apply Forall_combine_same. intros a. cbn. apply Qle_refl.
  - destruct (check_scale s); [|discriminate]. destruct (draws (length x) g) as [q0 g2]. destruct (draws (length x) g2) as [q1 g3]. injection E as <- _.
    apply Forall_map. apply Forall_forall. intros [u v] _. unfold sort_row, lo, hi, qmin, qmax. cbn [fst snd]. destruct (qle_spec u v); destruct (qle_spec v u); lra.
  - discriminate.
  - unfold check_scale in E. destruct (qlt s 0) eqn:ES; [discriminate|]. destruct (draws (length x) g) as [q0 g2]. destruct (draws (length x) g2) as [q1 g3]. injection E as <- _.
    apply qlt_false in ES. revert q0 q1. induction x as [|x0 x IH]; intros [|u q0] [|v q1]; cbn [map2 combine]; constructor; auto. cbn [lo hi fst snd].
    pose proof (Qabs_halfnorm s u ES). pose proof (Qabs_halfnorm s v ES). lra.
Qed.

(* ----- whatever mutants inherit, the results of the evolution strategy have ----- *)
Lemma filter_invalid_in {L : learner} a y (rs : list (rule L)) : forall out, filter_invalid a y rs = Ok out -> incl out rs.
Proof.
  induction rs as [|r rs IH]; intros out H; cbn [filter_invalid] in H; [injection H as <-; intros x []|].
  destruct (accept a r y) as [ok|]; [|discriminate]. cbn [rbind] in H. destruct (filter_invalid a y rs) as [rest|]; [|discriminate]. cbn [rbind] in H. injection H as <-.
  specialize (IH rest eq_refl). destruct ok; intros x Hx; [destruct Hx as [->|Hx]; [left; reflexivity|right; auto]|right; auto].
Qed.
Section Es.
Context {L : learner}.
Variables (c : escfg) (D : denv L) (I : rule L -> Prop) (J : row -> Prop).
Hypothesis HM : forall p g r g', I p -> mutant (es_d c) (es_mut c) D p g = (Ok r, g') -> I r.
Hypothesis HN : forall x g r g', J x -> new_rule (es_d c) D x g = (Ok r, g') -> I r.
Lemma es_loop_inv n : forall e w g (r : rule L) g', I e -> Forall I w -> es_loop c D n e w g = (Ok r, g') -> I r.
Proof.
  induction n as [|n IH]; intros e w g r g' He Hw H; cbn [es_loop] in H; [injection H as <- _; exact He|].
  set (w' := push (es_delay c) w e) in *.
  assert (Hw' : Forall I w').
  { apply Forall_forall. intros x Hx. apply push_in in Hx as [Hx| ->]; [|exact He]. rewrite Forall_forall in Hw. auto. }
  apply bind_inv in H as (ks & g1 & H1 & H).
  assert (Hks : Forall I ks).
  { apply (repeat_m_all I) in H1; [apply H1|]. intros g0 x g2 E. exact (HM _ _ _ _ He E). }
  assert (Hv : Forall I (filter is_valid ks)).
  { rewrite Forall_forall in Hks |- *. intros x Hx. apply filter_In in Hx as [Hx _]. auto. }
  destruct (filter is_valid ks) as [|v vs] eqn:EV; [exact (IH _ _ _ _ _ He Hw' H)|].
  apply bind_inv in H as (e' & g2 & H2 & H).
  assert (He' : I e').
  { destruct (es_operator c).
    - apply bind_inv in H2 as (s & g3 & H3 & H2). apply first_in in H2 as [H2 _]. apply pick_in in H3 as [H3 _]. rewrite Forall_forall in H3. specialize (H3 _ H2).
      rewrite Forall_forall in Hv. apply in_app_or in H3 as [H3|[<-|[]]]; auto.
    - apply bind_inv in H2 as (s & g3 & H3 & H2). apply first_in in H2 as [H2 _]. apply pick_in in H3 as [H3 _]. rewrite Forall_forall in H3, Hv. auto.
    - apply bind_inv in H2 as (s & g3 & H3 & H2). apply first_in in H2 as [H2 _]. apply pick_in in H3 as [H3 _]. rewrite Forall_forall in H3, Hv. auto.
    - injection H2 as <- _. exact He. }
  destruct (es_operator c); try (exact (IH _ _ _ _ _ He' Hw' H)). destruct (settled (es_delay c) w'); [|exact (IH _ _ _ _ _ He' Hw' H)].
  apply first_in in H as [H _]. rewrite Forall_forall in Hw'. auto.
Qed.
Lemma mmap_new xs : Forall J xs -> forall g (rs : list (rule L)) g', mmap (new_rule (es_d c) D) xs g = (Ok rs, g') -> Forall I rs.
Proof.
  induction 1 as [|x xs Hx HX IH]; intros g rs g' H; cbn [mmap] in H; [injection H as <- _; constructor|].
  apply bind_inv in H as (r & g1 & H1 & H). apply bind_inv in H as (rs' & g2 & H2 & H). injection H as <- _. constructor; [exact (HN _ _ _ _ Hx H1)|exact (IH _ _ _ H2)].
Qed.
Lemma es_inv n kids g out g' : (forall g xs g', origins (d_origin (es_d c)) D n g = (Ok xs, g') -> Forall J xs) -> es_optimize c D n kids g = (Ok out, g') -> Forall I out.
Proof.
  intros HO H. unfold es_optimize in H. apply bind_inv in H as (xs & g1 & H1 & H). apply bind_inv in H as (ini & g2 & H2 & H). apply bind_inv in H as (rs & g3 & H3 & H).
  apply HO in H1. apply mmap_new in H2; [|exact H1]. unfold lift in H, H3. injection H as H _. injection H3 as H3 _. apply filter_invalid_in in H.
  apply Forall_forall. intros r Hr. apply H in Hr. revert r Hr. apply Forall_forall.
  apply (rmap_all _ (fun z : rule L * rng => I (fst z)) I) in H3; [apply H3| |].
  - intros [e g0] r He HE. unfold es_task in HE. cbn [fst snd] in *. destruct (es_loop c D (es_iter c) e [] g0) as [z g4] eqn:EL. cbn [fst] in HE. subst z. exact (es_loop_inv _ _ _ _ _ _ He (Forall_nil _) EL).
  - apply Forall_forall. intros [e g0] Hin. apply in_combine_l in Hin. cbn. rewrite Forall_forall in H2. auto.
Qed.
End Es.

Section Made.
Context {L : learner}.
Variables (t : mtype) (d : nat) (K : constraint).
Hypothesis HK : space_dim d K.
(* the condition went through the constraint, from a condition of the right kind *)
Definition made_cond (c : matching) : Prop := exists m, c = constrain K m /\ mt m = t /\ length (bnd m) = d /\ (t = OrderedBound -> proper m).
Definition made (r : rule L) : Prop := made_cond (cond r).
Definition shaped (m : matching) : Prop := mt m = t /\ length (bnd m) = d.
Lemma made_shaped r : made r -> shaped (cond r).
Proof. intros (m & -> & H1 & H2 & _). split; [rewrite constrain_mt; exact H1|apply constrain_len; assumption]. Qed.

Lemma new_rule_made c D x g (r : rule L) g' : d_type c = t -> d_constraint c = K -> length x = d -> new_rule c D x g = (Ok r, g') -> made r.
Proof.
  intros Ht Hc HX H. unfold new_rule in H. apply bind_inv in H as (m & g1 & H1 & H). unfold lift in H. injection H as H _. apply fitted_cond in H.
  apply init_rule_shape in H1 as (A & B & C). exists m. rewrite Hc in H. split; [exact H|]. rewrite Ht in *. split; [exact A|]. split; [congruence|exact C].
Qed.
Lemma mutant_made c mu D p g (r : rule L) g' : d_constraint c = K -> shaped (cond p) -> mutant c mu D p g = (Ok r, g') -> made r.
Proof.
  intros Hc [P1 P2] H. unfold mutant in H. apply bind_inv in H as (m & g1 & H1 & H). unfold lift in H. injection H as H _. apply fitted_cond in H. rewrite Hc in H.
  exists m. split; [exact H|]. assert (HM : mt m = mt (cond p) /\ length (bnd m) = length (bnd (cond p)) /\ (mt (cond p) = OrderedBound -> proper m)).
  { destruct mu as [mu|mu l h]; cbn [mutate_rule] in H1; [exact (mutate_shape _ _ _ _ _ H1)|]. unfold sigma_range in H1. destruct (draw g) as [q g2]. exact (mutate_shape _ _ _ _ _ H1). }
  destruct HM as (A & B & C). split; [congruence|]. split; [congruence|]. intros E. apply C. congruence.
Qed.
Lemma mmap_made c D xs g (rs : list (rule L)) g' : d_type c = t -> d_constraint c = K -> Forall (fun x => length x = d) xs -> mmap (new_rule c D) xs g = (Ok rs, g') -> Forall made rs.
Proof.
  intros Ht Hc HX. revert g rs g'. induction HX as [|x xs Hx HX IH]; intros g rs g' H; cbn [mmap] in H; [injection H as <- _; constructor|].
  apply bind_inv in H as (r & g1 & H1 & H). apply bind_inv in H as (rs' & g2 & H2 & H). injection H as <- _. constructor; [eapply new_rule_made; eauto|eauto].
Qed.
(* ----- evolution strategy ----- *)
Lemma es_made c (D : denv L) n kids g out g' : table d (dX D) (dy D) -> d_type (es_d c) = t -> d_constraint (es_d c) = K -> es_optimize c D n kids g = (Ok out, g') -> Forall made out.
Proof.
  intros HT Ht Hc. apply (es_inv c D made (fun x => length x = d)).
  - intros p g0 r g1 Hp H. eapply mutant_made; [exact Hc| |exact H]. apply made_shaped. exact Hp.
  - intros x g0 r g1 Hx H. eapply new_rule_made; eauto.
  - intros g0 xs g1 H. apply (origins_len L D d HT) in H as [_ H]. exact H.
Qed.
(* ----- random search ----- *)
Lemma rs_made c (D : denv L) n g out g' : table d (dX D) (dy D) -> d_type (rs_d c) = t -> d_constraint (rs_d c) = K -> rs_optimize c D n g = (Ok out, g') -> Forall made out.
Proof.
  intros HT Ht Hc H. unfold rs_optimize in H. apply bind_inv in H as (o & g1 & H1 & H). unfold lift in H. injection H as H _. apply filter_invalid_in in H.
  apply (repeat_m_all (Forall made)) in H1.
  - destruct H1 as [_ H1]. apply Forall_forall. intros r Hr. apply H in Hr. apply in_concat in Hr as (l & Hl & Hr). rewrite Forall_forall in H1. specialize (H1 l Hl). rewrite Forall_forall in H1. auto.
  - intros g0 l g2 E. unfold rs_one in E. apply bind_inv in E as (xs & g3 & E1 & E). apply bind_inv in E as (rs & g4 & E2 & E).
    apply (origins_len L D d HT) in E1 as [_ E1]. apply mmap_made in E2; auto. apply pick_in in E as [E _]. rewrite Forall_forall in E, E2 |- *. auto.
Qed.
(* ----- novelty search: whatever rule objects there are, they were made this way ----- *)
Definition allmade (s : nst L) : Prop := Forall (fun c => made (crule c)) (cells s).
Definition triple {A} (m : St (nst L) A) (R : A -> Prop) : Prop := forall s v s', allmade s -> m s = (Ok v, s') -> allmade s' /\ R v.
Lemma t_bind {A B} (m : St (nst L) A) (k : A -> St (nst L) B) R S : triple m R -> (forall a, R a -> triple (k a) S) -> triple (bind m k) S.
Proof. intros H1 H2 s v s' HS H. apply bind_inv in H as (a & s1 & E1 & E2). destruct (H1 _ _ _ HS E1) as [A1 A2]. exact (H2 a A2 _ _ _ A1 E2). Qed.
Lemma t_any {A} (m : St (nst L) A) R : triple m R -> triple m (fun _ => True).
Proof. intros H s v s' HS E. destruct (H _ _ _ HS E). auto. Qed.
Lemma t_ret {A} (a : A) (R : A -> Prop) : R a -> triple (ret a) R.
Proof. intros H s v s' HS E. injection E as <- <-. auto. Qed.
Lemma t_raise {A} x (R : A -> Prop) : triple (raise x) R.
Proof. intros s v s' HS E. discriminate. Qed.
Lemma t_lift {A} (r : res A) (R : A -> Prop) : (forall a, r = Ok a -> R a) -> triple (lift r) R.
Proof. intros H s v s' HS E. unfold lift in E. injection E as -> <-. auto. Qed.
Lemma t_rng {A} (m : St rng A) (R : A -> Prop) : (forall g a g', m g = (Ok a, g') -> R a) -> triple (on_rng L m) R.
Proof. intros H s v s' HS E. unfold on_rng in E. destruct (m (gen s)) as [r g] eqn:EM. injection E as -> <-. split; [exact HS|eauto]. Qed.
Lemma t_cell i : triple (cell_of L i) (fun c => made (crule c)).
Proof.
  intros s v s' HS E. unfold cell_of in E. destruct (nth_error (cells s) i) as [c|] eqn:EN; [|discriminate]. injection E as <- <-. split; [exact HS|].
  unfold allmade in HS. rewrite Forall_forall in HS. apply HS. eapply nth_error_In; eauto.
Qed.
Lemma t_set i c : made (crule c) -> triple (set_cell L i c) (fun _ => True).
Proof.
  intros HC s v s' HS E. unfold set_cell in E. injection E as <- <-. split; [|exact I]. unfold allmade in *. cbn [cells]. rewrite Forall_forall in HS |- *.
  intros x Hx. destruct (Nat.lt_ge_cases i (length (cells s))) as [HL|HL]; [|rewrite update_oob in Hx by exact HL; auto].
  apply In_nth_error in Hx as (j & Hj). destruct (Nat.eq_dec j i) as [->|HN].
  - rewrite update_nth_same in Hj by exact HL. injection Hj as <-. exact HC.
  - rewrite update_nth_other in Hj by congruence. apply HS. eapply nth_error_In; eauto.
Qed.
Lemma t_alloc r : made r -> triple (alloc L r) (fun _ => True).
Proof. intros HR s v s' HS E. unfold alloc in E. injection E as <- <-. split; [|exact I]. unfold allmade in *. cbn [cells]. apply Forall_app. split; [exact HS|]. constructor; [exact HR|constructor]. Qed.
Lemma t_mmap {A B} (f : A -> St (nst L) B) (P : A -> Prop) (R : B -> Prop) l : (forall a, P a -> triple (f a) R) -> Forall P l -> triple (mmap f l) (Forall R).
Proof.
  intros H HP. induction HP as [|a l Ha HP IH]; cbn [mmap]; [apply t_ret; constructor|].
  eapply t_bind; [exact (H a Ha)|]. intros b Hb. eapply t_bind; [exact IH|]. intros bs Hbs. apply t_ret. constructor; assumption.
Qed.
Lemma t_miter {A} (f : A -> St (nst L) unit) l : (forall a, triple (f a) (fun _ => True)) -> triple (miter f l) (fun _ => True).
Proof. intros H. induction l as [|a l IH]; cbn [miter]; [apply t_ret; exact I|]. eapply t_bind; [apply H|]. intros _ _. exact IH. Qed.
Lemma all_true {A} (l : list A) : Forall (fun _ => True) l. Proof. induction l; constructor; auto. Qed.
Lemma t_map {A B} (f : A -> St (nst L) B) l : (forall a, triple (f a) (fun _ => True)) -> triple (mmap f l) (fun _ => True).
Proof. intros H. apply (t_any _ (Forall (fun _ => True))). apply (t_mmap f (fun _ => True)); [intros a _; apply H|apply all_true]. Qed.

Ltac t1 :=
  match goal with
  | |- triple (match ?x with _ => _ end) _ => destruct x
  | |- triple (ret _) _ => apply t_ret; exact I
  | |- triple (raise _) _ => apply t_raise
  | |- triple (lift _) _ => apply t_lift; intros; exact I
  | |- triple (on_rng _ _) _ => apply t_rng; intros; exact I
  | |- triple (bind (cell_of L _) _) _ => eapply t_bind; [apply t_cell|let c := fresh "c" in let H := fresh "HC" in intros c H; cbn beta in H]
  | |- triple (bind _ _) _ => eapply (t_bind _ _ (fun _ => True)); [|intros ? _]
  | |- triple (cell_of L _) (fun _ => True) => eapply t_any; apply t_cell
  | |- triple (set_cell L _ _) _ => apply t_set; assumption
  | |- triple (mmap _ _) (fun _ => True) => apply t_map; intros ?
  | |- triple (miter _ _) _ => apply t_miter; intros ?
  | |- triple (get_archive L) _ => intros ? ? ? ? E; injection E as <- <-; split; [assumption|exact I]
  | |- triple (extend_archive L _) _ => intros ? ? ? ? E; injection E as <- <-; split; [assumption|exact I]
  end.
Lemma t_push i q : triple (push_dist L i q) (fun _ => True). Proof. unfold push_dist. repeat t1. Qed.
Lemma t_matches i : triple (matches_of L i) (fun _ => True). Proof. unfold matches_of. repeat t1. Qed.
Lemma t_fitness i : triple (M_Novelty.fitness_of L i) (fun _ => True). Proof. unfold M_Novelty.fitness_of. repeat t1. Qed.
Lemma t_experience i : triple (experience_of L i) (fun _ => True). Proof. unfold experience_of. repeat t1. Qed.
Lemma t_score i : triple (score_of L i) (fun _ => True). Proof. unfold score_of. repeat t1. Qed.
Ltac t2 := first [apply t_push|apply t_matches|apply t_fitness|apply t_experience|apply t_score|t1].
Lemma t_filter ty rs : triple (filter_rules ty rs) (fun _ => True). Proof. unfold filter_rules. repeat t2. Qed.
Lemma t_local ty i l : triple (local_competition ty i l) (fun _ => True). Proof. unfold local_competition. repeat t2. Qed.
Lemma t_compare i j : triple (compare_with L i j) (fun _ => True). Proof. unfold compare_with. repeat t2. Qed.
Lemma t_mark rs : forall local, triple (mark local rs) (fun _ => True).
Proof.
  induction rs as [|i rs IH]; intros local; cbn [mark]; [t1|]. t1. t1; [|apply IH]. t1; [|t1]. t1; [t1|]. t1; [t1; apply t_compare|]. t1; [t2|]. repeat t1.
Qed.
Lemma t_base b k i : triple (base_score L b k i) (fun _ => True). Proof. unfold base_score. repeat t2. Qed.
Lemma t_scored b ty k l i : triple (score_rule L b ty k l i) (fun _ => True).
Proof. unfold score_rule. t1; [apply t_local|]. t1; [apply t_base|]. repeat t1. Qed.
Lemma t_novelty_score b ty k rs : triple (novelty_score b ty k rs) (fun _ => True).
Proof. unfold novelty_score. t1; [t1|]. t1; [apply t_filter|]. t1; [apply t_mark|]. t1; [t1; apply t_scored|]. t1. Qed.
Lemma t_with_key {B} (key : nat -> St (nst L) B) rs : (forall i, triple (key i) (fun _ => True)) -> triple (with_key L key rs) (fun _ => True).
Proof. intros H. unfold with_key. t1. t1; [apply H|t1]. Qed.
Lemma t_pareto rs : triple (pareto_front rs) (fun _ => True).
Proof. unfold pareto_front. t1; [apply t_with_key; intros i; repeat t2|]. repeat t1. Qed.
Lemma t_novelty b ty k rs : triple (novelty b ty k rs) (fun _ => True).
Proof.
  destruct b; cbn [novelty]; try apply t_novelty_score.
  - t1; [repeat t2|]. apply t_novelty_score.
  - t1; [apply t_novelty_score|apply t_pareto].
Qed.
Lemma t_n_best rs n : triple (n_best rs n) (fun _ => True).
Proof. unfold n_best. t1; [apply t_with_key; intros i; repeat t2|]. t1. Qed.
Lemma t_archive a rs n : triple (archive_rules a rs n) (fun _ => True).
Proof. destruct a; cbn [archive_rules]; [t1; [apply t_n_best|]| |]; repeat t1. Qed.
Lemma t_selection c rs n roh : triple (rule_selection c rs n roh) (fun _ => True).
Proof. unfold rule_selection. t1; [apply t_novelty|]. t1; [t1; [repeat t1|apply t_archive]|]. apply t_n_best. Qed.
Lemma crossover_shaped rate ty a b g cs g' : shaped a -> shaped b -> crossover rate ty a b g = (Ok cs, g') -> Forall shaped cs.
Proof.
  intros Ha Hb H. pose proof (crossover_len _ _ _ _ _ _ _ d (proj2 Ha) (proj2 Hb) H) as HL.
  assert (HM : Forall (fun m => mt m = t) cs).
  { unfold crossover in H. apply bind_inv in H as (u & g1 & _ & H). destruct (qlt u rate); [|injection H as <- _; repeat constructor; [apply Ha|apply Hb]].
    unfold uniform_crossover in H. destruct ty; try discriminate. apply bind_inv in H as (mask & g2 & _ & H). apply bind_inv in H as (a' & g3 & _ & H). apply bind_inv in H as (b' & g4 & _ & H).
    injection H as <- _. repeat constructor; [apply Ha|apply Hb]. }
  rewrite Forall_forall in *. intros m Hm. split; auto.
Qed.
Lemma t_children c D ps : d_constraint (ns_d c) = K -> triple (make_children L c D ps) (fun _ => True).
Proof.
  intros Hc. unfold make_children. eapply (t_bind _ _ (Forall (Forall shaped))).
  - apply (t_mmap _ (fun _ => True)); [|apply all_true]. intros p _. eapply t_bind; [apply t_cell|]. intros a Ha. eapply t_bind; [apply t_cell|]. intros b Hb.
    apply t_rng. intros g cs g' E. eapply crossover_shaped; [| |exact E]; apply made_shaped; assumption.
  - intros conds HC. apply (t_any _ (Forall (fun _ => True))). apply (t_mmap _ shaped).
    + intros m Hm. eapply t_bind; [|intros r Hr; apply t_alloc; exact Hr]. apply t_rng. intros g r g' E. eapply mutant_made; [exact Hc| |exact E]. exact Hm.
    + clear - HC. induction HC; cbn; [constructor|]. apply Forall_app. auto.
Qed.
Lemma t_init c D : table d (dX D) (dy D) -> d_type (ns_d c) = t -> d_constraint (ns_d c) = K -> triple (init_population L c D) (fun _ => True).
Proof.
  intros HT Ht Hc. unfold init_population. eapply (t_bind _ _ (Forall (fun x => length x = d))).
  - apply t_rng. intros g xs g' E. apply (origins_len L D d HT) in E as [_ E]. exact E.
  - intros xs HX. apply (t_any _ (Forall (fun _ => True))). apply (t_mmap _ (fun x => length x = d)); [|exact HX]. intros x Hx.
    eapply t_bind; [|intros r Hr; apply t_alloc; exact Hr]. apply t_rng. intros g r g' E. eapply new_rule_made; [exact Ht|exact Hc|exact Hx|exact E].
Qed.
Lemma t_parents c pop : triple (select_parents L c pop) (fun _ => True). Proof. unfold select_parents. repeat t2. Qed.
Lemma t_valid ids : triple (valid_children L ids) (fun _ => True). Proof. unfold valid_children. repeat t2. Qed.
Lemma t_loop c D n : d_constraint (ns_d c) = K -> forall pop best, triple (ns_loop c D n pop best) (fun _ => True).
Proof.
  intros Hc. induction n as [|n IH]; intros pop best; cbn [ns_loop]; [t1|]. t1; [apply t_parents|]. t1; [apply IH|]. t1; [apply t_children; exact Hc|]. t1; [apply t_valid|].
  t1; [apply IH|]. t1; [apply t_selection|]. t1; [apply t_selection|]. apply IH.
Qed.
Lemma accepted_in a y (cs : list (cell L)) : forall out, accepted L a y cs = Ok out -> incl out cs.
Proof.
  induction cs as [|r cs IH]; intros out H; cbn [accepted] in H; [injection H as <-; intros x []|].
  destruct (accept a (crule r) y) as [ok|]; [|discriminate]. cbn [rbind] in H. destruct (accepted L a y cs) as [rest|]; [|discriminate]. cbn [rbind] in H. injection H as <-.
  specialize (IH rest eq_refl). destruct ok; intros x Hx; [destruct Hx as [->|Hx]; [left; reflexivity|right; auto]|right; auto].
Qed.
Lemma ns_made c X y (pool : list (cell L)) el mix n g out g' : table d X y -> d_type (ns_d c) = t -> d_constraint (ns_d c) = K ->
  Forall (fun x => made (crule x)) pool -> ns_optimize c X y pool el mix n g = (Ok out, g') -> Forall (fun x => made (crule x)) out.
Proof.
  intros HT Ht Hc HP H. unfold ns_optimize in H. set (DD := mkDenv X y (map crule pool) el mix) in *.
  destruct (ns_run c DD n _) as [r s1] eqn:E. injection H as -> _.
  assert (HR : triple (ns_run c DD n) (Forall (fun x => made (crule x)))).
  { unfold ns_run. t1; [apply t_init; assumption|]. t1; [apply t_loop; exact Hc|]. eapply (t_bind _ _ (Forall (fun x => made (crule x)))).
    - apply (t_mmap _ (fun _ => True)); [|apply all_true]. intros i _. eapply t_bind; [apply t_cell|]. intros x Hx. apply t_ret. exact Hx.
    - intros o Ho. apply t_lift. intros z Hz. apply accepted_in in Hz. rewrite Forall_forall in Ho |- *. auto. }
  apply (HR _ _ _ (HP : allmade (mkNst pool (seq 0 (length pool)) g)) E).
Qed.
End Made.

(* ----- whole fit calls ----- *)
Lemma fit_made : forall (L : learner) rngof (D : discovery L) t k (C : composition L) (G : logger L) p os X y d (e e' : est D C G),
  works_with L rngof D t k -> table d X y -> given_dim d k -> fit p os false X y e = (Ok tt, e') -> is_error e' = false ->
  exists K, init_bounds X k = Ok K /\ space_dim d K /\ Forall (made t d K) (pool e').
Proof.
  intros L rngof D t k C G p os X y d e e' HW HT HG H HE.
  destruct HW as [c k|c k|c k].
  - pose (Pr := fun (pool : list (rule L)) (s : dst (es_discovery L rngof c k)) (_ : cst C) => init_bounds X k = Ok (d_constraint (es_d s)) /\ d_type (es_d s) = d_type (es_d c) /\ Forall (made (d_type (es_d c)) d (d_constraint (es_d s))) pool).
    destruct (fit_holds L (es_discovery L rngof c k) C G p X y Pr Pr) with (os := os) (e := e) (e' := e') as (d0 & c0 & s0 & _ & _ & (P1 & P2 & P3) & _); auto.
    + intros s0 c0 H0 _. cbn [dnew es_discovery] in H0. destruct (es_new c) as [c1|x] eqn:E1; [|discriminate]. cbn [rbind] in H0.
      destruct (init_bounds X k) as [k'|x] eqn:E2; [|discriminate]. cbn [rbind] in H0. injection H0 as <-. unfold Pr. cbn.
      split; [reflexivity|]. split; [|constructor]. unfold es_new in E1. destruct (es_operator c); try (injection E1 as <-; reflexivity).
      destruct (assert_ _); [|discriminate]. injection E1 as <-. reflexivity.
    + intros pool s0 c0 el n s new j s1 (P1 & P2 & P3) _ _ HR. cbn [drun es_discovery] in HR. injection HR as HR _ <-.
      destruct (es_optimize s0 _ n _ _) as [r g'] eqn:E. cbn [fst] in HR. subst r. split; [exact P1|]. split; [exact P2|]. apply Forall_app. split; [exact P3|].
      eapply es_made; [eapply init_bounds_dim; eauto| | | |exact E]; auto.
    + exists (d_constraint (es_d d0)). split; [exact P1|]. split; [|exact P3]. eapply init_bounds_dim; eauto.
  - pose (Pr := fun (pool : list (rule L)) (s : dst (rs_discovery L rngof c k)) (_ : cst C) => init_bounds X k = Ok (d_constraint (rs_d s)) /\ d_type (rs_d s) = d_type (rs_d c) /\ Forall (made (d_type (rs_d c)) d (d_constraint (rs_d s))) pool).
    destruct (fit_holds L (rs_discovery L rngof c k) C G p X y Pr Pr) with (os := os) (e := e) (e' := e') as (d0 & c0 & s0 & _ & _ & (P1 & P2 & P3) & _); auto.
    + intros s0 c0 H0 _. cbn [dnew rs_discovery] in H0. destruct (init_bounds X k) as [k'|x] eqn:E2; [|discriminate]. cbn [rbind] in H0. injection H0 as <-. unfold Pr. cbn.
      split; [reflexivity|]. split; [reflexivity|constructor].
    + intros pool s0 c0 el n s new j s1 (P1 & P2 & P3) _ _ HR. cbn [drun rs_discovery] in HR. injection HR as HR _ <-.
      destruct (rs_optimize s0 _ n _) as [r g'] eqn:E. cbn [fst] in HR. subst r. split; [exact P1|]. split; [exact P2|]. apply Forall_app. split; [exact P3|].
      eapply rs_made; [| | |exact E]; auto.
    + exists (d_constraint (rs_d d0)). split; [exact P1|]. split; [|exact P3]. eapply init_bounds_dim; eauto.
  - pose (Pr := fun (pool : list (rule L)) (s : dst (ns_discovery L rngof c k)) (_ : cst C) => init_bounds X k = Ok (d_constraint (ns_d (fst s))) /\ d_type (ns_d (fst s)) = d_type (ns_d c) /\
      Forall (made (d_type (ns_d c)) d (d_constraint (ns_d (fst s)))) pool /\ Forall (fun x => made (d_type (ns_d c)) d (d_constraint (ns_d (fst s))) (crule x)) (snd s)).
    destruct (fit_holds L (ns_discovery L rngof c k) C G p X y Pr Pr) with (os := os) (e := e) (e' := e') as (d0 & c0 & s0 & _ & _ & (P1 & P2 & P3 & P4) & _); auto.
    + intros s0 c0 H0 _. cbn [dnew ns_discovery] in H0. destruct (ns_new c) as [c1|x] eqn:E1; [|discriminate]. cbn [rbind] in H0.
      destruct (init_bounds X k) as [k'|x] eqn:E2; [|discriminate]. cbn [rbind] in H0. injection H0 as <-. unfold Pr. cbn.
      unfold ns_new in E1. destruct (assert_ _); [|discriminate]. injection E1 as <-. auto.
    + intros pool [c' cs] c0 el n s new j s1 (P1 & P2 & P3 & P4) _ _ HR. cbn [drun ns_discovery fst snd] in *.
      destruct (ns_optimize c' X y cs _ _ n _) as [r g'] eqn:E. cbn [fst] in HR. destruct r as [out|x]; [|discriminate]. injection HR as <- _ <-.
      assert (HM : Forall (fun x => made (d_type (ns_d c)) d (d_constraint (ns_d c')) (crule x)) out).
      { eapply ns_made; [eapply init_bounds_dim; eauto| | | | |exact E]; auto. }
      split; [exact P1|]. split; [exact P2|]. cbn [fst snd]. split; apply Forall_app; split; auto. apply Forall_map. exact HM.
    + exists (d_constraint (ns_d (fst d0))). split; [exact P1|]. split; [|exact P3]. eapply init_bounds_dim; eauto.
Qed.
Lemma resolved X y d k space K : table d X y -> clips_to X k space -> init_bounds X k = Ok K ->
  exists sp, (K = Clip sp \/ exists mr, K = CombinedConstraint mr sp) /\ proper_space sp /\ Forall2 (fun o s => fst o <= fst s /\ snd s <= snd o) space sp.
Proof.
  intros [HX _] HC H. unfold init_bounds in H. destruct (estimate_bounds X) as [bs|x] eqn:E; [|discriminate]. cbn [rbind] in H. injection H as <-.
  assert (HR : forall b : bounds, Forall2 (fun o s => fst o <= fst s /\ snd s <= snd o) b b) by (induction b as [|[u v] b IH]; constructor; auto; cbn; lra).
  assert (HB : proper_space bs /\ forall b, bounding X b -> Forall2 (fun o s => fst o <= fst s /\ snd s <= snd o) b bs).
  { destruct X as [|x0 X0]; [discriminate|]. assert (HF : Forall (fun r => length r = length x0) X0).
    { inversion HX; subst. assumption. }
    destruct (estimate_bounds_correct (x0 :: X0) x0 X0 eq_refl HF) as (b' & E' & _ & HP & _ & HS). rewrite E in E'. injection E' as <-. split; [exact HP|].
    intros b [HI _]. exact (HS b HI). }
  destruct HB as [HB1 HB2]. destruct HC as [b Hb|mr b Hb|b Hb|mr b Hb].
  - exists b. split; [left; reflexivity|]. split; [exact Hb|apply HR].
  - exists b. split; [right; exists mr; reflexivity|]. split; [exact Hb|apply HR].
  - exists bs. split; [left; reflexivity|]. split; [exact HB1|apply HB2; exact Hb].
  - exists bs. split; [right; exists mr; reflexivity|]. split; [exact HB1|apply HB2; exact Hb].
Qed.
Lemma inside_wider a b m : Forall2 (fun o s => fst o <= fst s /\ snd s <= snd o) a b -> inside b m -> inside a m.
Proof.
  unfold inside. generalize (bnd m) (mt m). intros bs t H. revert bs. induction H as [|o s a b [H1 H2] HF IH]; intros bs HI; inversion HI; subst; constructor; auto. lra.
Qed.
Lemma Forall_made {L} t d K (P : matching -> Prop) (rs : list (rule L)) : (forall m, mt m = t -> length (bnd m) = d -> (t = OrderedBound -> proper m) -> P (constrain K m)) -> Forall (made t d K) rs -> Forall (fun r => P (cond r)) rs.
Proof. intros H. apply Forall_impl. intros r (m & -> & H1 & H2 & H3). auto. Qed.
Lemma rules_inside : forall (L : learner) rngof (D : discovery L) k (C : composition L) (G : logger L) p os X y d space (e e' : est D C G),
  works_with L rngof D OrderedBound k -> table d X y -> given_dim d k -> clips_to X k space -> fit p os false X y e = (Ok tt, e') -> is_error e' = false ->
  Forall (fun r => proper (cond r) /\ inside space (cond r)) (pool e').
Proof.
  intros L rngof D k C G p os X y d space e e' HW HT HG HC H HE. destruct (fit_made _ _ _ _ _ _ _ _ _ _ _ _ _ _ HW HT HG H HE) as (K & HK & HD & HM).
  destruct (resolved X y d k space K HT HC HK) as (sp & HKs & HP & HF).
  apply (Forall_made OrderedBound d K (fun m => proper m /\ inside space m)); [|exact HM]. intros m M1 M2 M3. specialize (M3 eq_refl).
  destruct HKs as [->|(mr & ->)]; cbn [space_dim] in HD.
  - destruct (clip_ordered_all m sp M1) as (_ & A & B & _); [congruence|exact HP|]. split; [auto|]. exact (inside_wider _ _ _ HF A).
  - destruct (combined_ordered m mr sp M1) as (A & B & _); [congruence|exact HP|]. split; [auto|]. exact (inside_wider _ _ _ HF A).
Qed.
Lemma rules_wide : forall (L : learner) rngof (D : discovery L) mr (C : composition L) (G : logger L) p os X y d (e e' : est D C G),
  works_with L rngof D OrderedBound (GivenMinRange mr) -> 0 < mr -> table d X y -> fit p os false X y e = (Ok tt, e') -> is_error e' = false ->
  Forall (fun r => proper (cond r) /\ wide mr (cond r)) (pool e').
Proof.
  intros L rngof D mr C G p os X y d e e' HW Hmr HT H HE. destruct (fit_made _ _ _ _ _ _ _ _ _ _ _ _ _ _ HW HT I H HE) as (K & HK & HD & HM).
  unfold init_bounds in HK. destruct (estimate_bounds X) as [bs|x]; [|discriminate]. cbn [rbind] in HK. injection HK as <-.
  apply (Forall_made OrderedBound d (MinRange mr) (fun m => proper m /\ wide mr m)); [|exact HM]. intros m M1 M2 M3. specialize (M3 eq_refl).
  destruct (min_range_ordered_all m mr M1 M3) as (A & B & _). auto.
Qed.
Lemma rules_limited : forall (L : learner) rngof (D : discovery L) t k (C : composition L) (G : logger L) p os X y d space (e e' : est D C G),
  works_with L rngof D t k -> t = CenterSpread \/ t = MinPercentage -> table d X y -> given_dim d k -> clips_to X k space -> fit p os false X y e = (Ok tt, e') -> is_error e' = false ->
  Forall (fun r => Forall (fun b => -(1) <= fst b <= 1 /\ 0 <= snd b <= 2) (bnd (cond r))) (pool e').
Proof.
  intros L rngof D t k C G p os X y d space e e' HW Ht HT HG HC H HE. destruct (fit_made _ _ _ _ _ _ _ _ _ _ _ _ _ _ HW HT HG H HE) as (K & HK & HD & HM).
  destruct (resolved X y d k space K HT HC HK) as (sp & HKs & HP & HF).
  apply (Forall_made t d K (fun m => Forall (fun b => -(1) <= fst b <= 1 /\ 0 <= snd b <= 2) (bnd m))); [|exact HM]. intros m M1 M2 _.
  assert (HB : forall m, mt m = t -> length (bnd m) = length sp -> Forall (fun b => -(1) <= fst b <= 1 /\ 0 <= snd b <= 2) (bnd (clip m sp))).
  { clear - Ht. intros [t0 bs] E. cbn in *. subst t0. revert bs. generalize sp. intros sp0. induction sp0 as [|lh sp0 IH]; intros [|b bs] HL; try discriminate; cbn; constructor; auto.
    - assert (forall z, -(1) <= qclip (-(1)) 1 z <= 1) by (intros; apply qclip_range; lra). assert (forall z, 0 <= qclip 0 2 z <= 2) by (intros; apply qclip_range; lra).
      assert (forall z, 0 <= qclip 0 1 z <= 1) by (intros; apply qclip_range; lra). destruct Ht as [-> | ->]; cbn [clip_pair fst snd]; split; auto. specialize (H1 (snd b)). lra. }
  destruct HKs as [->|(mr & ->)]; cbn [space_dim] in HD; cbn [constrain]; apply HB; try congruence; [rewrite min_range_mt; exact M1|rewrite min_range_length; congruence].
Qed.

(* ----- a growing evolution strategy ----- *)
Lemma corners t bs x : covers (mkMatching OrderedBound bs) (map fst x) -> covers (mkMatching OrderedBound bs) (map snd x) -> t = OrderedBound ->
  Forall2 (fun p c => fst c <= fst p /\ snd p <= snd c) x bs.
Proof.
  intros H1 H2 ->. unfold covers in *. cbn [mt bnd] in *. revert x H1 H2. induction bs as [|[u v] bs IH]; intros [|[a b] x] H1 H2; inversion H1; subst; inversion H2; subst; constructor; auto. cbn in *. lra.
Qed.
Lemma own_corners m : mt m = OrderedBound -> proper m -> covers m (map fst (bnd m)) /\ covers m (map snd (bnd m)).
Proof.
  destruct m as [t bs]. cbn [mt]. intros ->. unfold proper, covers. cbn [mt bnd]. induction 1 as [|[u v] bs H HF [IH1 IH2]]; split; constructor; auto; cbn in *; lra.
Qed.
Lemma corners_in space m : mt m = OrderedBound -> proper m -> inside space m -> in_space space (map fst (bnd m)) /\ in_space space (map snd (bnd m)).
Proof.
  destruct m as [t bs]. cbn [mt]. intros ->. unfold proper, inside, in_space. cbn [mt bnd]. intros HP HI. induction HI as [|lh [u v] space bs [H1 H2] HF IH]; [split; constructor|].
  inversion HP; subst. destruct (IH H4) as [I1 I2]. split; constructor; auto; cbn in *; lra.
Qed.
Definition spacious mr space (m : matching) : Prop := mt m = OrderedBound /\ proper m /\ inside space m /\ roomy mr space m.
Lemma mean_spacious mr space x : 0 < mr -> proper_space space -> in_space space x -> spacious mr space (constrain (CombinedConstraint mr space) (mkMatching OrderedBound (combine x x))).
Proof.
  intros Hmr HP HX. set (m := mkMatching OrderedBound (combine x x)).
  assert (M1 : proper m). { unfold proper, m. cbn [mt bnd]. apply Forall_combine_same. intros a. cbn. apply Qle_refl. }
  assert (M2 : inside space m). { unfold inside, m. cbn [mt bnd]. clear - HX. unfold in_space in HX. induction HX; cbn; constructor; auto. }
  assert (HL : length space = length (bnd m)). { clear - M2. unfold inside in M2. induction M2; cbn; congruence. }
  destruct (combined_ordered m mr space eq_refl HL HP) as (A & B & _). split; [rewrite constrain_mt; reflexivity|]. split; [auto|]. split; [exact A|].
  unfold roomy. rewrite constrain_mt. exact (proj1 (combined_ordered_width m mr space eq_refl M1 M2 Hmr)).
Qed.
Lemma grown_spacious mr space m m' : proper_space space -> spacious mr space m -> mt m' = OrderedBound -> length (bnd m') = length (bnd m) -> proper m' ->
  (forall x, covers m x -> covers m' x) -> spacious mr space (constrain (CombinedConstraint mr space) m').
Proof.
  intros HP (M1 & M2 & M3 & M4) T HL HP' HC.
  assert (HLs : length space = length (bnd m')). { rewrite HL. clear - M3. unfold inside in M3. induction M3; cbn; congruence. }
  destruct (combined_ordered m' mr space T HLs HP) as (A & B & Kp). split; [rewrite constrain_mt; exact T|]. split; [auto|]. split; [exact A|].
  destruct (own_corners m M1 M2) as [C1 C2]. destruct (corners_in space m M1 M2 M3) as [I1 I2].
  pose proof (Kp _ I1 (HC _ C1)) as D1. pose proof (Kp _ I2 (HC _ C2)) as D2.
  set (c := constrain (CombinedConstraint mr space) m') in *. assert (Tc : mt c = OrderedBound) by (unfold c; rewrite constrain_mt; exact T).
  destruct c as [tc bc]. cbn [mt] in Tc. subst tc. pose proof (corners _ _ _ D1 D2 eq_refl) as HF. destruct m as [tm bm]. cbn [mt bnd] in *. subst tm.
  unfold roomy in *. cbn [mt bnd] in *. clear - M4 HF. revert bc HF. induction M4 as [|lh [u v] space bm H HR IH]; intros bc HF; inversion HF as [|? [u' v'] ? bc' [F1 F2] F3]; subst; constructor; auto.
  cbn [fst snd] in *. cbn [lo hi] in *. lra.
Qed.
Lemma growing_inv mu m g m' g' : growing mu -> mt m = OrderedBound -> mutate_rule mu m g = (Ok m', g') ->
  mt m' = OrderedBound /\ length (bnd m') = length (bnd m) /\ proper m' /\ forall x, covers m x -> covers m' x.
Proof.
  intros HG HM H. destruct HG as [s Hs|s Hs]; cbn [mutate_rule] in H; destruct (mutate_shape _ _ _ _ _ H) as (A & B & C); (split; [congruence|]; split; [exact B|]; split; [apply C; exact HM|]; intros x; refine (increase_keeps s m g m' g' x _ HM Hs _ H); auto).
Qed.
Lemma origins_within {L} o (D : denv L) d n g xs g' bs : table d (dX D) (dy D) -> estimate_bounds (dX D) = Ok bs -> origins o D n g = (Ok xs, g') -> Forall (in_space bs) xs.
Proof.
  intros [HX HY] HB H.
  assert (HI : forall r, In r (dX D) -> in_space bs r).
  { destruct (dX D) as [|x0 X0]; [discriminate|]. inversion HX; subst. destruct (estimate_bounds_correct (x0 :: X0) x0 X0 eq_refl) as (b' & E' & _ & _ & HI & _); [assumption|].
    rewrite HB in E'. injection E' as <-. exact HI. }
  assert (HO : o <> UniformInput -> Forall (in_space bs) xs).
  { intros HO. destruct (origins_in L D o n g xs g' HO H) as [_ H2]. revert H2. apply Forall_impl. auto. }
  destruct o; try (apply HO; discriminate). apply (uniform_input_box _ _ _ _ _ d HX) in H as [_ H]. apply H. exact HI.
Qed.
Lemma wider_roomy mr a b m : Forall2 (fun o s => fst o == fst s /\ snd o == snd s) a b -> roomy mr b m -> roomy mr a m.
Proof.
  unfold roomy. generalize (bnd m) (mt m). intros bs t H. revert bs. induction H as [|o s a b [H1 H2] HF IH]; intros bs HI; inversion HI; subst; constructor; auto.
  rewrite H1, H2. assumption.
Qed.
Lemma growing_rules_roomy : forall (L : learner) rngof (c : escfg) mr (C : composition L) (G : logger L) p os X y d space (e e' : est (es_discovery L rngof c (GivenCombined mr None)) C G),
  d_type (es_d c) = OrderedBound -> d_init (es_d c) = MeanInit -> growing (es_mut c) -> 0 < mr -> table d X y -> bounding X space -> fit p os false X y e = (Ok tt, e') -> is_error e' = false ->
  Forall (fun r => proper (cond r) /\ inside space (cond r) /\ roomy mr space (cond r)) (pool e').
Proof.
  intros L rngof c mr C G p os X y d space e e' Ht Hi Hg Hmr HT HB H HE.
  destruct (estimate_bounds X) as [bs|] eqn:EB.
  2:{ exfalso. destruct (fit_made L rngof _ _ _ C G p os X y d e e' (With_es L rngof c (GivenCombined mr None)) HT I H HE) as (K & HK & _). unfold init_bounds in HK. rewrite EB in HK. discriminate. }
  assert (HS : proper_space bs /\ (forall r, In r X -> in_space bs r) /\ forall sp, (forall r, In r X -> in_space sp r) -> Forall2 (fun o s => fst o <= fst s /\ snd s <= snd o) sp bs).
  { destruct HT as [HX _]. destruct X as [|x0 X0]; [discriminate|]. inversion HX; subst. destruct (estimate_bounds_correct (x0 :: X0) x0 X0 eq_refl) as (b' & E' & _ & HP & HI & HS); [assumption|].
    rewrite EB in E'. injection E' as <-. auto. }
  destruct HS as (S1 & S2 & S3). pose proof (S3 space (proj1 HB)) as HF1. pose proof (proj2 HB bs S2) as HF2.
  assert (HQ : Forall2 (fun o s => fst o == fst s /\ snd o == snd s) space bs).
  { clear - HF1 HF2. induction HF1 as [|o s a b [H1 H2] HF IH]; constructor; inversion HF2; subst; auto. split; lra. }
  pose (Pr := fun (pool : list (rule L)) (s : dst (es_discovery L rngof c (GivenCombined mr None))) (_ : cst C) => es_d s = set_constraint (CombinedConstraint mr bs) (es_d c) /\ es_mut s = es_mut c /\ Forall (fun r => spacious mr bs (cond r)) pool).
  destruct (fit_holds L (es_discovery L rngof c (GivenCombined mr None)) C G p X y Pr Pr) with (os := os) (e := e) (e' := e') as (d0 & c0 & s0 & _ & _ & (P1 & P2 & P3) & _); auto.
  - intros s0 c0 H0 _. cbn [dnew es_discovery] in H0. destruct (es_new c) as [c1|x] eqn:E1; [|discriminate]. cbn [rbind] in H0.
    unfold init_bounds in H0. rewrite EB in H0. cbn [rbind] in H0. injection H0 as <-. unfold Pr. cbn [es_d es_mut].
    assert (c1 = c) as ->. { unfold es_new in E1. destruct (es_operator c); try (injection E1 as <-; reflexivity). destruct (assert_ _); [|discriminate]. injection E1 as <-. reflexivity. }
    auto.
  - intros pool s0 c0 el n s new j s1 (P1 & P2 & P3) _ _ HR. cbn [drun es_discovery] in HR. injection HR as HR _ <-.
    destruct (es_optimize s0 _ n _ _) as [r g'] eqn:E. cbn [fst] in HR. subst r. split; [exact P1|]. split; [exact P2|]. apply Forall_app. split; [exact P3|].
    revert E. apply (es_inv s0 _ (fun r => spacious mr bs (cond r)) (in_space bs)).
    + intros q g r g1 HI HM. unfold mutant in HM. apply bind_inv in HM as (m & g2 & H1 & HM). unfold lift in HM. injection HM as HM _. apply fitted_cond in HM. rewrite HM, P1. cbn [d_constraint set_constraint].
      rewrite P2 in H1. destruct (growing_inv _ _ _ _ _ Hg (proj1 HI) H1) as (A & B & A2 & A3). exact (grown_spacious mr bs (cond q) m S1 HI A B A2 A3).
    + intros x g r g1 HI HM. unfold new_rule in HM. apply bind_inv in HM as (m & g2 & H1 & HM). unfold lift in HM. injection HM as HM _. apply fitted_cond in HM. rewrite HM, P1. cbn [d_constraint set_constraint].
      rewrite P1 in H1. cbn [d_init d_type set_constraint] in H1. rewrite Ht, Hi in H1. injection H1 as <- _. apply mean_spacious; auto.
    + intros g xs g1 HO. exact (origins_within _ (discovery_env X y pool (option_map (with_pool pool) el)) d n g xs g1 bs HT EB HO).
  - revert P3. apply Forall_impl. intros r (A1 & A2 & A3 & A4). split; [exact A2|]. split; [exact (inside_wider _ _ _ HF1 A3)|]. exact (wider_roomy _ _ _ _ HQ A4).
Qed.
