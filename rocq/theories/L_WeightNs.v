(* Novelty search with another experience_weight. *)
From Coq Require Import Lia.
From Verif Require Import PyNum PyList PyMon PyRng PyStat L_Num L_List M_Matching M_Rule M_RuleGen M_Mixing M_GenomeOps M_Discovery M_Novelty L_Invariance S_Units L_Units L_Tandem S_Order S_Repeat S_Weight L_Weight.

Section Ns.
Variable L : learner.
Definition inv (s : nst L) : Prop := Forall (fun c => measured (crule c)) (cells s).
Definition kept {A} (m : St (nst L) A) (Q : A -> Prop) : Prop := forall s, inv s -> inv (snd (m s)) /\ forall x, fst (m s) = Ok x -> Q x.
Notation yes := (fun _ => True).
Lemma kp_ret {A} (x : A) (Q : A -> Prop) : Q x -> kept (ret x) Q.
Proof. intros H s HI. cbn. split; [exact HI|]. intros z E. injection E as <-. exact H. Qed.
Lemma kp_raise {A} e (Q : A -> Prop) : kept (raise e) Q.
Proof. intros s HI. cbn. split; [exact HI|discriminate]. Qed.
Lemma kp_bind {A B} (m : St (nst L) A) (k : A -> St (nst L) B) Q R : kept m Q -> (forall x, Q x -> kept (k x) R) -> kept (bind m k) R.
Proof. intros HM HK s HI. specialize (HM s HI). unfold bind. destruct (m s) as [[x|e] s1]; destruct HM as [H1 H2]; cbn [fst snd] in *; [apply HK; auto|split; [exact H1|discriminate]]. Qed.
Lemma kp_lift {A} (r : res A) : kept (lift r) yes.
Proof. intros s HI. cbn. auto. Qed.
Lemma kp_rng {A} (m : St rng A) : kept (on_rng L m) yes.
Proof. intros s HI. unfold on_rng. destruct (m (gen s)). cbn. auto. Qed.
Lemma kp_cell i : kept (cell_of L i) (fun c => measured (crule c)).
Proof. intros s HI. cbn. split; [exact HI|]. intros c E. destruct (nth_error (cells s) i) as [d|] eqn:EN; [|discriminate]. injection E as <-. unfold inv in HI. rewrite Forall_forall in HI. apply HI. eapply nth_error_In. exact EN. Qed.
Lemma update_all {A} (P : A -> Prop) (l : list A) : forall i x, Forall P l -> P x -> Forall P (update l i x).
Proof. induction l as [|a l IH]; intros [|i] x H Hx; cbn; auto; inversion H; subst; constructor; auto. Qed.
Lemma kp_set i c : measured (crule c) -> kept (set_cell L i c) yes.
Proof. intros H s HI. cbn. split; [apply update_all; assumption|auto]. Qed.
Lemma kp_alloc r : measured r -> kept (alloc L r) yes.
Proof. intros H s HI. cbn. split; [apply Forall_app; split; [exact HI|constructor; [exact H|constructor]]|auto]. Qed.
Lemma kp_archive : kept (get_archive L) yes.
Proof. intros s HI. cbn. auto. Qed.
Lemma kp_extend l : kept (extend_archive L l) yes.
Proof. intros s HI. cbn. auto. Qed.
Lemma kp_mmap {A B} (f : A -> St (nst L) B) l : (forall x, kept (f x) yes) -> kept (mmap f l) yes.
Proof. intros H. induction l as [|x l IH]; cbn [mmap]; [apply kp_ret; exact I|]. eapply kp_bind; [apply H|]. intros b _. eapply kp_bind; [exact IH|]. intros bs _. apply kp_ret. exact I. Qed.
Lemma kp_iter {A} (f : A -> St (nst L) unit) l : (forall x, kept (f x) yes) -> kept (miter f l) yes.
Proof. intros H. induction l as [|x l IH]; cbn [miter]; [apply kp_ret; exact I|]. eapply kp_bind; [apply H|]. intros _ _. exact IH. Qed.
Lemma kp_weak {A} (m : St (nst L) A) Q : kept m Q -> kept m yes.
Proof. intros H s HI. split; [apply H; exact HI|auto]. Qed.
Ltac kp := repeat first
  [ apply kp_ret; exact I | apply kp_raise | apply kp_lift | apply kp_rng | apply kp_archive | apply kp_extend | apply (kp_weak _ _ (kp_cell _))
  | apply kp_set; cbn [crule]; assumption
  | apply kp_mmap; intros ? | apply kp_iter; intros ?
  | eapply kp_bind; [apply kp_cell|cbn beta; intros ? ?]
  | eapply kp_bind with (Q := yes); [|cbn beta; intros ? _]
  | progress cbv zeta
  | match goal with |- kept (match ?x with _ => _ end) _ => destruct x end
  | match goal with |- kept (if ?x then _ else _) _ => destruct x end ].
Lemma kp_push i q : kept (push_dist L i q) yes. Proof. unfold push_dist. kp. Qed.
Lemma kp_matches i : kept (matches_of L i) yes. Proof. unfold matches_of. kp. Qed.
Lemma kp_fitness i : kept (fitness_of L i) yes. Proof. unfold fitness_of. kp. Qed.
Lemma kp_experience i : kept (experience_of L i) yes. Proof. unfold experience_of. kp. Qed.
Lemma kp_score i : kept (score_of L i) yes. Proof. unfold score_of. kp. Qed.
Ltac kq := kp; auto using kp_push, kp_matches, kp_fitness, kp_experience, kp_score; kp.
Lemma kp_filter t rs : kept (@filter_rules L t rs) yes. Proof. unfold filter_rules. kq. Qed.
Lemma kp_local t i l : kept (@local_competition L t i l) yes. Proof. unfold local_competition. kq. Qed.
Lemma kp_compare i j : kept (@compare_with L i j) yes. Proof. unfold compare_with. kq. Qed.
Lemma kp_mark rs : forall local, kept (@mark L local rs) yes.
Proof.
  induction rs as [|i rs IH]; intros local; cbn [mark]; [kp|]. eapply kp_bind; [apply kp_cell|]. intros c Hc. eapply kp_bind with (Q := yes); [|intros _ _; apply IH].
  destruct (needs_distances _ _ _); [|kp]. eapply kp_bind with (Q := yes); [apply kp_set; exact Hc|]. intros _ _. eapply kp_bind with (Q := yes); [apply kp_iter; intros; apply kp_compare|]. intros _ _. eapply kp_bind with (Q := yes); [apply kp_push|]. intros _ _. kp.
Qed.
Lemma kp_base b k i : kept (@base_score L b k i) yes. Proof. unfold base_score. kp; try apply kp_fitness. Qed.
Lemma kp_scored b t k local i : kept (@score_rule L b t k local i) yes.
Proof. unfold score_rule. eapply kp_bind with (Q := yes); [apply kp_local|]. intros lc _. eapply kp_bind with (Q := yes); [apply kp_base|]. intros s _. kp. Qed.
Lemma kp_novelty_score b t k rs : kept (@novelty_score L b t k rs) yes.
Proof. unfold novelty_score. eapply kp_bind with (Q := yes); [kp|]. intros a _. eapply kp_bind with (Q := yes); [apply kp_filter|]. intros fl _. eapply kp_bind with (Q := yes); [apply kp_mark|]. intros local _. eapply kp_bind with (Q := yes); [apply kp_iter; intros; apply kp_scored|]. intros _ _. kp. Qed.
Lemma kp_key {B} (key : nat -> St (nst L) B) rs : (forall i, kept (key i) yes) -> kept (@with_key L _ key rs) yes.
Proof. intros H. unfold with_key. apply kp_mmap. intros i. eapply kp_bind; [apply H|]. intros k _. kp. Qed.
Lemma kp_pareto rs : kept (@pareto_front L rs) yes.
Proof. unfold pareto_front. eapply kp_bind with (Q := yes); [apply kp_key; intros i; eapply kp_bind with (Q := yes); [apply kp_score|]; intros s _; eapply kp_bind with (Q := yes); [apply kp_fitness|]; intros f _; kp|]. intros ks _. kp. Qed.
Lemma kp_novelty b t k rs : kept (@novelty L b t k rs) yes.
Proof.
  unfold novelty. destruct b; try apply kp_novelty_score.
  - eapply kp_bind with (Q := yes); [apply kp_mmap; intros; apply kp_fitness|]. intros fs _. cbv zeta. apply kp_novelty_score.
  - eapply kp_bind with (Q := yes); [apply kp_novelty_score|]. intros out _. apply kp_pareto.
Qed.
Lemma kp_best rs n : kept (@n_best L rs n) yes.
Proof. unfold n_best. eapply kp_bind with (Q := yes); [apply kp_key; intros i; eapply kp_bind with (Q := yes); [apply kp_score|]; intros s _; eapply kp_bind with (Q := yes); [apply kp_experience|]; intros f _; kp|]. intros ks _. kp. Qed.
Lemma kp_archived a rs n : kept (@archive_rules L a rs n) yes.
Proof. unfold archive_rules. destruct a; [eapply kp_bind with (Q := yes); [apply kp_best|]; intros b _; kp|kp|kp]. Qed.
Lemma kp_selection c rs n roh : kept (@rule_selection L c rs n roh) yes.
Proof.
  unfold rule_selection. eapply kp_bind with (Q := yes); [apply kp_novelty|]. intros out _. eapply kp_bind with (Q := yes); [destruct (ns_use_pop c); [kp|apply kp_archived]|]. intros out' _. apply kp_best.
Qed.
Lemma kp_parents c pop : kept (@select_parents L c pop) yes. Proof. unfold select_parents. kp. Qed.
Lemma kp_valid ids : kept (@valid_children L ids) yes. Proof. unfold valid_children. kp. Qed.

(* ----- the two runs ----- *)
Definition twin (s s' : nst L) : Prop := s' = s /\ inv s.
Lemma tw_same {A} (m : St (nst L) A) : kept m yes -> tandem twin eq m m.
Proof. intros H s s' [-> HI]. specialize (H s HI). destruct (m s) as [[x|e] s1]; destruct H as [H _]; cbn in H; repeat split; assumption. Qed.
Lemma tw_rng {A} (R : A -> A -> Prop) (m m' : St rng A) : alike R m m' -> tandem twin R (on_rng L m) (on_rng L m').
Proof. intros H s s' [-> HI]. unfold on_rng. specialize (H (gen s)). destruct (m (gen s)) as [[x|e] g], (m' (gen s)) as [[x'|e'] g']; try contradiction; destruct H as [-> H]; repeat split; assumption. Qed.
Lemma tw_new (m m' : St rng (rule L)) : alike same_measured m m' -> tandem twin eq (let* r := on_rng L m in alloc L r) (let* r := on_rng L m' in alloc L r).
Proof. intros H. eapply tan_bind; [apply tw_rng; exact H|]. intros r r' [-> Hr]. apply tw_same. apply kp_alloc. exact Hr. Qed.
Section Run.
Variables D D' : denv L.
Hypothesis HD : reweighted_problem D D'.
Lemma tw_init c : tandem twin eq (@init_population L c D) (@init_population L c D').
Proof. unfold init_population. eapply tan_bind; [apply tw_rng, (origins_weight L D D' HD)|]. intros xs xs' <-. apply tan_each. intros x. apply tw_new. apply new_weight. exact HD. Qed.
Lemma tw_children c ps : tandem twin eq (@make_children L c D ps) (@make_children L c D' ps).
Proof.
  unfold make_children. eapply tan_bind with (R := eq); [apply tw_same; kp|]. intros cs cs' <-. apply tan_each. intros m. apply tw_new. apply mutant_weight. exact HD.
Qed.
Lemma tw_loop c n : forall pop best, tandem twin eq (@ns_loop L c D n pop best) (@ns_loop L c D' n pop best).
Proof.
  induction n as [|n IH]; intros pop best; cbn [ns_loop]; [apply tan_ret; reflexivity|]. eapply tan_bind with (R := eq); [apply tw_same, kp_parents|]. intros ps ps' <-. destruct ps as [|p ps]; [apply IH|].
  eapply tan_bind; [apply tw_children|]. intros ch ch' <-. eapply tan_bind with (R := eq); [apply tw_same, kp_valid|]. intros v v' <-. destruct v as [|x v]; [apply IH|].
  eapply tan_bind with (R := eq); [apply tw_same, kp_selection|]. intros b b' <-. eapply tan_bind with (R := eq); [apply tw_same, kp_selection|]. intros e e' <-. apply IH.
Qed.
Definition same_cell (c c' : cell L) : Prop := c' = c /\ measured (crule c).
Lemma tw_run c n : tandem twin (Forall2 same_cell) (@ns_run L c D n) (@ns_run L c D' n).
Proof.
  unfold ns_run. eapply tan_bind; [apply tw_init|]. intros pop pop' <-. eapply tan_bind; [apply tw_loop|]. intros best best' <-. eapply tan_bind with (R := Forall2 same_cell).
  - apply (tan_mmap _ eq); [|apply Forall2_eq]. intros i i' <-. intros s s' [-> HI]. unfold bind. pose proof (kp_cell i s HI) as [_ H]. cbn [cell_of fst snd] in *. destruct (of_option Dangling (nth_error (cells s) i)) as [x|e] eqn:E; cbn; [|repeat split; assumption]. split; [split; [reflexivity|exact HI]|]. split; [reflexivity|]. apply (H x). reflexivity.
  - intros out out' HO. rewrite (proj2 (rwp_data _ _ HD)). apply tan_lift. induction HO as [|x x' out out' [-> Hx] HO IH]; cbn [accepted]; [constructor|]. destruct (accept _ _ _) as [ok|e]; cbn [rbind]; [|reflexivity].
    destruct (@accepted L _ _ out), (@accepted L _ _ out'); cbn in *; try contradiction; [|exact IH]. destruct ok; [constructor; [split; auto|exact IH]|exact IH].
Qed.
End Run.
Lemma ns_weight c X y pool elite mix mix' n : Forall (fun x => measured (crule x)) pool -> (elite <> None -> reweighted mix mix') ->
  alike (Forall2 same_cell) (@ns_optimize L c X y pool elite mix n) (@ns_optimize L c X y pool elite mix' n).
Proof.
  intros HP HM g. unfold ns_optimize. assert (HD : reweighted_problem (mkDenv X y (map crule pool) elite mix) (mkDenv X y (map crule pool) elite mix')) by (constructor; cbn; auto; split; [reflexivity|apply Forall_map; exact HP]).
  pose proof (tw_run _ _ HD c n (mkNst pool (seq 0 (length pool)) g) _ (conj eq_refl HP)) as H.
  destruct (@ns_run L c _ n _) as [[o|e] s], (@ns_run L c (mkDenv X y (map crule pool) elite mix') n _) as [[o'|e'] s']; try contradiction; destruct H as [[-> _] H]; cbn; auto.
Qed.
End Ns.
