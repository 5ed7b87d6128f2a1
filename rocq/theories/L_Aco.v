(* Ant colony: safety and pheromone ranges. *)
From Coq Require Import Lia Permutation.
From Verif Require Import PyNum PyList PyMon PyRng PyStat L_Num L_List L_Rng M_Matching M_Rule M_Mixing L_Mixing M_Solution S_Solution
  L_Heap L_HeapProps M_Composition L_Safe L_SafeFit L_Composition M_GenomeOps S_GenomeOps L_GenomeOps L_Held M_Aco S_Aco.

Definition keeps_mark (P : num -> Prop) (d : num) : Prop :=
  (forall x, P x -> P (nadd x d)) /\ forall x b, P x -> P (nadd x (nmul (flag b) d)).
(* what the colony needs from a builder; ok P n p: one entry per rule, all values satisfy P *)
Record builder_ok (B : builder) (tau0 : Q) (ok : (num -> Prop) -> nat -> ph B -> Prop) : Prop := {
  bo_fresh : forall (P : num -> Prop) n, P (Fin tau0) -> exists p, ph_pad B None n = Ok p /\ ok P n p;
  bo_pad : forall (P : num -> Prop) m n p, P (Fin tau0) -> ok P m p -> (m <= n)%nat -> exists p', ph_pad B (Some p) n = Ok p' /\ ok P n p';
  bo_map : forall (P P' : num -> Prop) f n p, ok P n p -> (forall x, P x -> P' (f x)) -> ok P' n (ph_map B f p);
  bo_update : forall P n p g d, ok P n p -> length g = n -> keeps_mark P d -> ok P n (ph_update B p g d);
  bo_build : forall L (E : env L) A h P p (s : hst plain), inv A s -> ok P (length (epool E)) p ->
     safe E A h (ph_build B L p (epool E)) (fun bits _ => length bits = length (epool E)) s }.

(* ----- the two builders ----- *)
Lemma pairs_for_repeat (P : num -> Prop) t n : P t -> pairs_for P n (repeat (t, t) n).
Proof.
  intros H. split; [apply repeat_length|]. apply Forall_forall. intros x Hx. apply repeat_spec in Hx. subst x. auto.
Qed.
Lemma pairs_for_pad (P : num -> Prop) m n t r : P t -> pairs_for P m r -> (m <= n)%nat -> pairs_for P n (r ++ repeat (t, t) (n - m)).
Proof.
  intros H [HL HF] HM. split; [rewrite app_length, repeat_length; lia|]. apply Forall_app. split; auto. apply (pairs_for_repeat P t (n - m) H).
Qed.
Lemma pairs_for_map (P P' : num -> Prop) f n r : pairs_for P n r -> (forall x, P x -> P' (f x)) ->
  pairs_for P' n (map (fun t => (f (fst t), f (snd t))) r).
Proof.
  intros [HL HF] H. split; [rewrite map_length; auto|]. apply Forall_map. revert HF. apply Forall_impl. cbn. intuition.
Qed.
Lemma fitness_notbad {L} (r : rule L) e : fitness_of L r = Raise e -> ~ bad e.
Proof. unfold fitness_of, get_att. destruct (att r); cbn; intros H; inversion H; subst. notbad. Qed.
Lemma relative_notbad {L} (pool : list (rule L)) e : relative_fitness pool = Raise e -> ~ bad e.
Proof.
  unfold relative_fitness. destruct (rmap (fitness_of L) pool) as [fs|e'] eqn:ER; cbn.
  - destruct fs as [|f fs]; cbn; intros H; inversion H; subst. notbad.
  - intros H; inversion H; subst. eapply rmap_raise; [|exact ER]. intros x e0. apply fitness_notbad.
Qed.
Lemma relative_length {L} (pool : list (rule L)) eta : relative_fitness pool = Ok eta -> length eta = length pool.
Proof.
  unfold relative_fitness. destruct (rmap (fitness_of L) pool) as [fs|e'] eqn:ER; cbn; [|discriminate].
  assert (HL : length fs = length pool).
  { clear - ER. revert fs ER. induction pool as [|r pool IH]; cbn; intros fs H; [inversion H; auto|].
    destruct (fitness_of L r); cbn in H; [|discriminate]. destruct (rmap (fitness_of L) pool); cbn in H; [|discriminate]. inversion H; subst. cbn. auto. }
  destruct (nmin fs); cbn; [|discriminate]. destruct (nmax fs); cbn; [|discriminate]. intros H; inversion H; subst. rewrite map_length; auto.
Qed.

Lemma binary_ok A b : builder_ok (Binary A b) (b_tau0 b) pairs_for.
Proof.
  split; cbn [ph ph_pad ph_map ph_build ph_update Binary].
  - intros P n H. unfold bin_pad. cbn [length Nat.ltb Nat.leb]. replace (Nat.ltb n 0) with false by (symmetry; apply Nat.ltb_ge; lia).
    eexists. split; [reflexivity|]. rewrite Nat.sub_0_r. apply pairs_for_repeat; auto.
  - intros P m n p H HO HM. unfold bin_pad. pose proof HO as [HL _]. rewrite HL. replace (Nat.ltb n m) with false by (symmetry; apply Nat.ltb_ge; lia).
    eexists. split; [reflexivity|]. apply pairs_for_pad; auto.
  - intros P P' f n p HO H. eapply pairs_for_map; eauto.
  - intros P n p g d [HL HF] Hg [_ HK]. split; [unfold bin_update; rewrite map2_length; lia|]. unfold bin_update.
    assert (HG : length g = length p) by lia. clear - HF HK HG. revert g HG. induction HF as [|t p [H1 H2] HF IH]; intros [|v g] HG; cbn [map2 length] in *; try discriminate; constructor; [cbn [fst snd]; split; apply HK; auto|apply IH; lia].
  - intros L E A0 h P p s I [HL HF]. unfold bin_build.
    eapply safe_bind; [apply (safe_lift E A0 h (relative_fitness (epool E)) (fun eta _ => relative_fitness (epool E) = Ok eta) s I)|].
    { destruct (relative_fitness (epool E)) eqn:ER; auto. eapply relative_notbad; eauto. }
    intros eta s1 G1 HE. cbv beta. pose proof (relative_length _ _ HE) as HLe. rewrite HL, Nat.eqb_refl. cbn [negb].
    eapply safe_bind; [apply safe_randoms; inv_of G1|]. intros us s2 G2 [Hu _]. cbv beta. apply safe_ret; [inv_of G2|].
    rewrite map2_length; auto. rewrite map2_length; lia.
Qed.

Lemma mapi_aux_pairs (P : num -> Prop) n (f : nat -> num * num -> num * num) r : pairs_for P n r ->
  (forall i t, P (fst t) -> P (snd t) -> P (fst (f i t)) /\ P (snd (f i t))) -> pairs_for P n (mapi f r).
Proof.
  intros [HL HF] H. split; [rewrite mapi_length; auto|]. apply all_nth. intros i x Hx. rewrite mapi_nth in Hx.
  destruct (nth_error r i) as [t|] eqn:Et; [|discriminate]. inversion Hx; subst. apply nth_error_In in Et. rewrite Forall_forall in HF. destruct (HF _ Et). auto.
Qed.
Lemma com_prob_notbad A b partial {L} p (pool : list (rule L)) eta route j e : com_prob A b partial p pool eta route j = Raise e -> ~ bad e.
Proof.
  assert (HO : forall T (o : option T) e, of_option IndexError o = Raise e -> ~ bad e) by (intros T [x|] e0; cbn; intros H; inversion H; notbad).
  unfold com_prob. destruct (of_option IndexError (nth_error pool j)) as [rj|e0] eqn:E1; cbn [rbind]; [|intros H; inversion H; subst; eapply HO; eauto].
  destruct (of_option IndexError (nth_error eta j)) as [fj|e0] eqn:E2; cbn [rbind]; [|intros H; inversion H; subst; eapply HO; eauto].
  match goal with |- context[rmap ?f ?l] => destruct (rmap f l) as [ov|e0] eqn:E3 end; cbn [rbind].
  2: { intros H; inversion H; subst. eapply rmap_raise; [|exact E3]. intros x e1. cbn beta. destruct (of_option IndexError (nth_error pool x)) eqn:E4; cbn [rbind]; intros H'; inversion H'; subst. eapply HO; eauto. }
  match goal with |- context[rmap ?f ?l] => destruct (rmap f l) as [ta|e0] eqn:E4 end; cbn [rbind]; [discriminate|].
  intros H; inversion H; subst. eapply rmap_raise; [|exact E4]. intros x e1. cbn beta. unfold entry.
  destruct (of_option IndexError (nth_error p x)) eqn:E5; cbn [rbind]; [|intros H'; inversion H'; subst; eapply HO; eauto]. apply HO.
Qed.
Lemma bump_square (P : num -> Prop) n select d p ij : square_for P n p -> (forall x, P x -> P (nadd x d)) -> square_for P n (bump select d p ij).
Proof.
  intros [HL HF] HK. unfold bump. split; [rewrite mapi_length; auto|].
  apply all_nth. intros i x Hx. rewrite mapi_nth in Hx. destruct (nth_error p i) as [r|] eqn:Er; [|discriminate]. inversion Hx; subst.
  apply nth_error_In in Er. rewrite Forall_forall in HF. destruct (Nat.eqb i (fst ij)); [|apply HF; auto]. apply mapi_aux_pairs; [apply HF; auto|].
  intros j t H1 H2. destruct (Nat.eqb j (snd ij)); [|cbn; auto]. destruct select; cbn; auto.
Qed.
Lemma fold_keeps {T U} (I : T -> Prop) (f : T -> U -> T) l : (forall x u, I x -> I (f x u)) -> forall x, I x -> I (fold_left f l x).
Proof. intros H. induction l as [|u l IH]; cbn; auto. Qed.
Lemma update_square (P : num -> Prop) n p g d : square_for P n p -> (forall x, P x -> P (nadd x d)) -> square_for P n (com_update p g d).
Proof.
  intros HO HK. unfold com_update. apply fold_keeps; [intros; apply bump_square; auto; apply bump_square; auto|].
  unfold bumps. apply fold_keeps; [intros; apply bump_square; auto|]. apply fold_keeps; [intros; apply bump_square; auto|].
  destruct (Nat.ltb _ _); auto. apply fold_keeps; [intros; apply bump_square; auto|]. auto.
Qed.
Lemma complete_ok A b partial : builder_ok (Complete A b partial) (b_tau0 b) square_for.
Proof.
  split; cbn [ph ph_pad ph_map ph_build ph_update Complete].
  - intros P n H. unfold com_pad. cbn [length]. replace (Nat.ltb n 0) with false by (symmetry; apply Nat.ltb_ge; lia).
    eexists. split; [reflexivity|]. rewrite Nat.sub_0_r. cbn [map app]. split; [apply repeat_length|].
    apply Forall_forall. intros x Hx. apply repeat_spec in Hx. subst x. apply pairs_for_repeat; auto.
  - intros P m n p H [HL HF] HM. unfold com_pad. rewrite HL. replace (Nat.ltb n m) with false by (symmetry; apply Nat.ltb_ge; lia).
    eexists. split; [reflexivity|]. split; [rewrite app_length, map_length, repeat_length; lia|]. apply Forall_app. split.
    + apply Forall_map. revert HF. apply Forall_impl. intros r Hr. apply pairs_for_pad; auto.
    + apply Forall_forall. intros x Hx. apply repeat_spec in Hx. subst x. apply pairs_for_repeat; auto.
  - intros P P' f n p [HL HF] H. split; [rewrite map_length; auto|]. apply Forall_map. revert HF. apply Forall_impl. intros r Hr. eapply pairs_for_map; eauto.
  - intros P n p g d HO Hg [HK _]. apply update_square; auto.
  - intros L E A0 h P p s I HO. unfold com_build.
    eapply safe_bind; [apply (safe_lift E A0 h (relative_fitness (epool E)) (fun _ _ => True) s I)|].
    { destruct (relative_fitness (epool E)) eqn:ER; auto. eapply relative_notbad; eauto. }
    intros eta s1 G1 _. cbv beta. eapply safe_bind with (Q := fun _ _ => True).
    { apply (safe_rnd1 E A0 h _ (fun _ => True)); [inv_of G1|exact Logic.I]. }
    intros order s2 G2 _. cbv beta. eapply safe_bind with (Q := fun _ _ => True).
    { generalize (@nil nat) as route. assert (I2 : inv A0 s2) by inv_of G2. clear - I2. revert s2 I2. induction order as [|j order IH]; intros s2 I2 route; cbn [com_route]; [apply safe_ret; auto|].
      eapply safe_bind with (Q := fun _ _ => True).
      - unfold com_visit. eapply safe_bind; [apply (safe_lift E A0 h _ (fun _ _ => True) s2 I2)|].
        + destruct (com_prob A b partial p (epool E) eta route j) eqn:EC; auto. eapply com_prob_notbad; eauto.
        + intros w s3 G3 _. cbv beta. eapply safe_bind; [apply safe_random; inv_of G3|]. intros u s4 G4 _. apply safe_ret; [inv_of G4|auto].
      - intros route' s3 G3 _. apply IH. inv_of G3. }
    intros route s3 G3 _. cbv beta. apply safe_ret; [inv_of G3|]. rewrite map_length, seq_length. auto.
Qed.

(* ----- the colony ----- *)
Section Colony.
Context {L : learner}.
Variable E : env L.
Variable A : nat -> Prop.
Implicit Types s : hst plain.
Let n := length (epool E).
Local Notation safe := (safe E A).
Local Notation good := (good E A).
Local Notation inv := (inv A).
Variables (B : builder) (tau0 : Q) (ok : (num -> Prop) -> nat -> ph B -> Prop) (c : acfg).
Hypothesis HB : builder_ok B tau0 ok.
(* P: what holds of all values before a step; P': after it *)
Variables P P' : num -> Prop.
Hypothesis Hevap : forall x, P x -> P (nmul (Fin (1 - a_evap c)) x).
Hypothesis Hmark : forall s r f, honest E s r -> has_fit s r f -> keeps_mark P (nmul f (Fin (a_c c))).
Hypothesis Hclip : forall x, P x -> P' (nclip (Fin (a_min c)) (Fin (a_max c)) x).
Hypothesis Hback : forall x, P' x -> P x.

Lemma ok_weaken (Q Q' : num -> Prop) m p : (forall x, Q x -> Q' x) -> ok Q m p -> ph_map B (fun x => x) p = p -> ok Q' m p.
Proof. intros H HO <-. eapply (bo_map _ _ _ HB); eauto. Qed.

Lemma safe_aco_step pop p s : inv s -> Forall (good s) pop -> ok P n p ->
  safe false (aco_step B c E (pop, p)) (fun z s' => Forall (good s') (fst z) /\ Forall (honest E s') (fst z) /\ fst z = pop /\ ok P' n (snd z)) s.
Proof.
  intros I HG HO. cbn [aco_step].
  apply safe_bind with (Q := fun _ _ => True).
  { eapply safe_post; [apply (safe_miter E A false _ (fun _ _ => True)); auto|auto].
    intros r s1 Hr G1. eapply safe_bind; [apply (bo_build _ _ _ HB) with (P := P); [inv_of G1|exact HO]|].
    intros bits s2 G2 HL. cbv beta in *. eapply safe_post; [apply safe_set_genome; [inv_of G2| |exact HL]|auto].
    eapply grow_good; [exact G2|]. eapply grow_good; [exact G1|]. rewrite Forall_forall in HG. auto. }
  intros u s1 G1 _. cbv beta. pose proof (grow_goods _ _ _ _ _ _ G1 HG) as HG1.
  eapply safe_bind; [apply safe_fit_all; [inv_of G1|exact HG1]|]. intros pop' s2 G2 (-> & HG2 & HH2). cbv beta zeta.
  eapply safe_bind; [apply safe_by_fitness; [inv_of G2|exact HG2]|]. intros ranked s0 _ (-> & HP). cbv beta.
  apply safe_bind with (Q := fun marks s' => s' = s2 /\ Forall (fun m => length (fst m) = n /\ keeps_mark P (snd m)) marks).
  { assert (HR : Forall (fun r => good s2 r /\ honest E s2 r) (firstn (a_best c) ranked)).
    { apply Forall_forall. intros r Hr. apply In_firstn in Hr. rewrite Forall_forall in HG2, HH2. assert (In r pop) by (eapply Permutation_in; eauto). auto. }
    assert (I2 : inv s2) by inv_of G2. clear - HR I2 Hmark. revert HR. generalize (firstn (a_best c) ranked) as l.
    induction l as [|r l IH]; intros HR; cbn [mmap]; [apply safe_ret; auto|]. inversion HR as [|? ? [Hg Hh] HR']; subst.
    eapply safe_bind with (Q := fun m s' => s' = s2 /\ length (fst m) = n /\ keeps_mark P (snd m)).
    - eapply safe_bind; [apply safe_genome; eauto|]. intros bits s0 _ (-> & HL & _). cbv beta.
      eapply safe_bind; [apply safe_fitness_held; [auto|left; eauto]|]. intros f s0 _ (-> & Hf). cbv beta. apply safe_ret; auto. cbn [fst snd].
      split; auto. split; eauto.
    - intros m s0 _ (-> & H1 & H2). cbv beta. eapply safe_bind; [apply IH; auto|]. intros ms s0 _ (-> & Hms). apply safe_ret; auto. }
  intros marks s0 _ (-> & HM). cbv beta. apply safe_ret; [inv_of G2|]. cbn [fst snd]. split; auto. split; auto. split; auto.
  eapply (bo_map _ _ _ HB); [|exact Hclip].
  assert (HO1 : ok P n (ph_map B (nmul (Fin (1 - a_evap c))) p)) by (eapply (bo_map _ _ _ HB); eauto).
  revert HO1. generalize (ph_map B (nmul (Fin (1 - a_evap c))) p) as q. clear - HM HB. induction HM as [|m ms [H1 H2] _ IH]; intros q Hq; cbn [fold_left]; auto.
  apply IH. apply (bo_update _ _ _ HB); auto.
Qed.
(* the pheromones after a call: with at least one iteration they have just been clipped *)
Hypothesis Htau : P (Fin tau0).
Hypothesis Hid : forall p, ph_map B (fun x => x) p = p.
Definition pheromones_ok (Q : num -> Prop) (st : option (ph B)) (m : nat) : Prop :=
  match st with None => True | Some p => exists k, (k <= m)%nat /\ ok Q k p end.
Lemma safe_aco_run ini pop st s : inv s -> Forall (good s) pop -> pheromones_ok P st n ->
  safe false (aco_run B c L E ini pop st) (fun r s' => Forall (good s') (fst r) /\ Forall (honest E s') (fst r) /\ length (fst r) = length pop /\
     exists p, snd r = Some p /\ ok P n p /\ (a_iter c <> 0%nat -> ok P' n p)) s.
Proof.
  intros I HG HO. unfold aco_run.
  assert (HPad : exists p, ph_pad B (if a_warm c then st else None) n = Ok p /\ ok P n p).
  { destruct (a_warm c); [|apply (bo_fresh _ _ _ HB); auto]. destruct st as [p|]; [|apply (bo_fresh _ _ _ HB); auto].
    destruct HO as (k & HK & HO). eapply (bo_pad _ _ _ HB); eauto. }
  destruct HPad as (p & HE & HP). fold n. rewrite HE.
  eapply safe_bind; [apply (safe_lift E A false (Ok p) (fun x s' => x = p /\ s' = s)); auto|]. intros x s0 _ [-> ->]. cbv beta.
  eapply safe_bind; [apply safe_fit_all; auto|]. intros p0 s1 G1 (-> & H1 & H2). cbv beta.
  apply safe_bind with (Q := fun z s' => Forall (good s') (fst z) /\ Forall (honest E s') (fst z) /\ fst z = pop /\ ok P n (snd z) /\ (a_iter c <> 0%nat -> ok P' n (snd z))).
  - destruct (a_iter c) as [|k] eqn:EI.
    + cbn [iterate]. apply safe_ret; [inv_of G1|]. cbn. repeat (split; auto). congruence.
    + cbn [iterate]. eapply safe_bind; [apply safe_aco_step; [inv_of G1|exact H1|exact HP]|]. intros z s2 G2 HZ. cbv beta.
      eapply safe_post.
      * apply (safe_iterate E A false _ (fun z s' => Forall (good s') (fst z) /\ Forall (honest E s') (fst z) /\ fst z = pop /\ ok P' n (snd z))); [inv_of G2|exact HZ|].
        intros [q p1] s3 I3 (Ha & Hb & Hc & Hd). cbn [fst snd] in *. subst q. apply safe_aco_step; auto. eapply ok_weaken; eauto.
      * intros z' s3 _ (Ha & Hb & Hc & Hd). split; auto. split; auto. split; auto. split; auto. eapply ok_weaken; eauto.
  - intros z s2 G2 (Ha & Hb & Hc & Hd & He). cbv beta. apply safe_ret; [inv_of G2|]. cbn [fst snd]. split; auto. split; auto. split; [congruence|]. eauto.
Qed.
End Colony.

Lemma keeps_mark_true d : keeps_mark (fun _ => True) d. Proof. split; auto. Qed.
Lemma pheromones_ok_mono B ok Q st m m' : pheromones_ok B ok Q st m -> (m <= m')%nat -> pheromones_ok B ok Q st m'.
Proof. destruct st as [p|]; cbn; auto. intros (k & H1 & H2) HM. exists k. split; auto. lia. Qed.
Lemma aco_contract B tau0 ok c : builder_ok B tau0 ok -> (forall p, ph_map B (fun x => x) p = p) ->
  contract (aco B c) (pheromones_ok B ok (fun _ => True)).
Proof.
  intros HB Hid. split; [intros; eapply pheromones_ok_mono; eauto|]. intros L E A ini s pop i I HG HO _. cbn [orun aco].
  eapply safe_post; [eapply (safe_aco_run E A B tau0 ok c HB (fun _ => True) (fun _ => True)); eauto using keeps_mark_true|].
  intros [q i'] s' _ (H1 & H2 & _ & p & H3 & H4 & _). cbn [fst snd] in *. subst i'. split; auto. split; auto. cbn. eauto.
Qed.
Lemma binary_map_id A b p : ph_map (Binary A b) (fun x => x) p = p.
Proof. cbn. induction p as [|[x y] p IH]; cbn; congruence. Qed.
Lemma complete_map_id A b partial p : ph_map (Complete A b partial) (fun x => x) p = p.
Proof.
  cbn. induction p as [|r p IH]; cbn; auto. f_equal; auto. clear. induction r as [|[x y] r IH]; cbn; congruence.
Qed.
