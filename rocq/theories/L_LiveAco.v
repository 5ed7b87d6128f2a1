(* The ant colony always returns. *)
From Coq Require Import Lia Permutation.
From Verif Require Import PyNum PyList PyMon PyRng PyStat L_Num L_List L_Rng M_Matching M_Rule M_Mixing L_Mixing L_MixingProps L_Filters M_Solution S_Solution
  L_Heap L_HeapProps M_Composition L_Safe L_SafeFit L_Composition M_GenomeOps S_GenomeOps L_GenomeOps L_Held M_Aco S_Aco L_Aco L_LiveComp.

Definition fitted_rules {L} (E : env L) : Prop := Forall (fun r => att r <> None) (epool E).
Lemma relative_total {L} (E : env L) : fitted_rules E -> epool E <> [] -> exists eta, relative_fitness (epool E) = Ok eta.
Proof.
  intros HF HN. unfold relative_fitness. destruct (rmap_fitness_ok L (epool E) HF) as (fs & Ef). rewrite Ef. cbn [rbind].
  destruct (epool E) as [|r pool]; [congruence|]. destruct fs as [|f fs]; [|cbn; eauto]. exfalso. cbn in Ef. destruct (fitness_of L r); [|discriminate]. cbn in Ef. destruct (rmap (fitness_of L) pool); discriminate.
Qed.
Definition builder_builds (B : builder) (ok : (num -> Prop) -> nat -> ph B -> Prop) : Prop :=
  forall L (E : env L) p (s : hst plain), fitted_rules E -> epool E <> [] -> ok (fun _ => True) (length (epool E)) p -> returns (ph_build B L p (epool E)) s.
Lemma binary_builds A b : builder_builds (Binary A b) pairs_for.
Proof.
  intros L E p s HF HN [HL _]. cbn [ph_build Binary]. unfold bin_build, returns. destruct (relative_total E HF HN) as (eta & ->).
  rewrite (bind_ok _ _ s eta s) by reflexivity. cbv beta. rewrite HL, Nat.eqb_refl. cbn [negb]. rewrite (bind_ok _ _ _ _ _ (rnd1_eq _ s)). eexists _, _. reflexivity.
Qed.
Lemma com_prob_total A b partial {L} p (pool : list (rule L)) eta route j : square_for (fun _ => True) (length pool) p -> length eta = length pool -> (j < length pool)%nat ->
  Forall (fun i => (i < length pool)%nat) route -> exists w, com_prob A b partial p pool eta route j = Ok w.
Proof.
  intros [HL HS] HE Hj HR. unfold com_prob.
  destruct (nth_error pool j) as [rj|] eqn:E1; [|apply nth_error_None in E1; lia]. destruct (nth_error eta j) as [fj|] eqn:E2; [|apply nth_error_None in E2; lia]. cbn [of_option rbind].
  set (cons := match rev route with [] => [] | last :: _ => if partial then route else [last] end).
  assert (HC : Forall (fun i => (i < length pool)%nat) cons).
  { unfold cons. destruct (rev route) as [|l rr] eqn:ER; [constructor|]. destruct partial; [exact HR|]. constructor; [|constructor].
    rewrite Forall_forall in HR. apply HR. apply in_rev. rewrite ER. left. reflexivity. }
  destruct (rmap_ok_each (fun i => let? ri := of_option IndexError (nth_error pool i) in Ok (bounds_overlap ri rj)) cons) as (ov & Eo & _).
  { intros i Hi. rewrite Forall_forall in HC. specialize (HC i Hi). destruct (nth_error pool i) eqn:E3; [cbn; eauto|apply nth_error_None in E3; lia]. }
  rewrite Eo. cbn [rbind].
  assert (HT : forall l, Forall (fun i => (i < length pool)%nat) l -> exists t, rmap (fun i => entry p i j) l = Ok t).
  { intros l Hl. destruct (rmap_ok_each (fun i => entry p i j) l) as (t & Et & _); [|eauto]. intros i Hi. rewrite Forall_forall in Hl. specialize (Hl i Hi). unfold entry.
    destruct (nth_error p i) as [row|] eqn:E3; [|apply nth_error_None in E3; lia]. cbn [of_option rbind]. apply nth_error_In in E3. rewrite Forall_forall in HS. destruct (HS _ E3) as [HLr _].
    destruct (nth_error row j) eqn:E4; [cbn; eauto|apply nth_error_None in E4; lia]. }
  destruct (HT (match route with [] => seq 0 (length p) | _ => cons ++ [j] end)) as (ta & Et).
  { destruct route; [apply Forall_forall; intros i Hi; apply in_seq in Hi; lia|]. apply Forall_app. split; [exact HC|]. constructor; auto. }
  rewrite Et. cbn [rbind]. eauto.
Qed.
Lemma complete_builds A b partial : builder_builds (Complete A b partial) square_for.
Proof.
  intros L E p s HF HN HO. cbn [ph_build Complete]. unfold com_build, returns. destruct (relative_total E HF HN) as (eta & ER). rewrite ER. pose proof (relative_length _ _ ER) as HLe.
  rewrite (bind_ok _ _ s eta s) by reflexivity. cbv beta. rewrite (bind_ok _ _ _ _ _ (rnd1_eq _ s)). cbv beta.
  set (order := fst (shuffle (seq 0 (length (epool E))) (hrng s))). set (s1 := with_r s _).
  assert (HOr : Forall (fun i => (i < length (epool E))%nat) order).
  { apply Forall_forall. intros i Hi. eapply Permutation_in in Hi; [|symmetry; apply shuffle_perm]. apply in_seq in Hi. lia. }
  assert (H : forall route s1, Forall (fun i => (i < length (epool E))%nat) route -> returns (com_route (com_visit A b partial p (epool E) eta) order route) s1).
  { clearbody order s1. clear s s1. induction HOr as [|j order Hj HOr IH]; intros route s HR; cbn [com_route]; [eexists _, _; reflexivity|].
    unfold com_visit at 1. destruct (com_prob_total A b partial p (epool E) eta route j HO HLe Hj HR) as (w & Ew).
    set (m := bind (lift _) _). assert (Hm : exists route' s', m s = (Ok route', s') /\ Forall (fun i => (i < length (epool E))%nat) route').
    { unfold m. rewrite Ew. rewrite (bind_ok _ _ s w s) by reflexivity. cbv beta. rewrite (bind_ok _ _ _ _ _ (rnd1_eq _ s)). eexists _, _. split; [reflexivity|].
      destruct (nle _ _); [apply Forall_app; split; [exact HR|constructor; auto]|exact HR]. }
    destruct Hm as (route' & s' & Em & HR'). unfold returns. rewrite (bind_ok _ _ _ _ _ Em). apply IH. exact HR'. }
  destruct (H [] s1) as (route & s2 & E2); [constructor|]. rewrite (bind_ok _ _ _ _ _ E2). eexists _, _. reflexivity.
Qed.

Section Colony.
Context {L : learner}.
Variable E : env L.
Variable A : nat -> Prop.
Implicit Types s : hst plain.
Let n := length (epool E).
Hypothesis HM : measurable E.
Hypothesis HF : fitted_rules E.
Hypothesis HN : epool E <> [].
Local Notation safe := (safe E A).
Local Notation good := (good E A).
Local Notation inv := (inv A).
Local Notation lives := (lives E A).
Local Notation grow := (grow E A).
Variables (B : builder) (tau0 : Q) (ok : (num -> Prop) -> nat -> ph B -> Prop) (c : acfg).
Hypothesis HB : builder_ok B tau0 ok.
Hypothesis HL : builder_builds B ok.
Hypothesis Hid : forall p, ph_map B (fun x => x) p = p.
Lemma lives_miter {T} h (f : T -> HSt plain unit) l s : inv s -> (forall x s', In x l -> grow h s s' -> lives h (f x) (fun _ _ => True) s') -> lives h (miter f l) (fun _ _ => True) s.
Proof.
  revert s. induction l as [|x l IH]; intros s I HX; cbn [miter]; [apply lives_ret; auto|].
  eapply lives_bind; [apply HX; [left; reflexivity|apply grow_refl; exact I]|]. intros u s1 G1 _. apply IH; [apply (grow_inv _ _ _ _ _ G1)|].
  intros y s' Hy G. apply HX; [right; exact Hy|]. eapply grow_trans; eauto.
Qed.
Lemma lives_aco_step pop p s : inv s -> Forall (good s) pop -> pop <> [] -> ok (fun _ => True) n p ->
  lives false (aco_step B c E (pop, p)) (fun z s' => Forall (good s') (fst z) /\ fst z = pop /\ ok (fun _ => True) n (snd z)) s.
Proof.
  intros I HG HNp HO. split.
  { eapply safe_post; [apply (safe_aco_step E A B tau0 ok c HB (fun _ => True) (fun _ => True)); auto; intros; apply keeps_mark_true|]. intros z s' _ (H1 & _ & H3 & H4). auto. }
  enough (H : lives false (aco_step B c E (pop, p)) (fun _ _ => True) s) by apply H. cbn [aco_step].
  eapply lives_bind.
  { apply lives_miter; [exact I|]. intros r s1 Hr G1. pose proof (grow_inv _ _ _ _ _ G1) as I1. eapply lives_bind.
    - split; [apply (bo_build _ _ _ HB) with (P := fun _ => True); [exact I1|exact HO]|apply HL; auto].
    - intros bits s2 G2 Hb. cbv beta in *. assert (Hg : good s2 r) by (eapply grow_good; [exact G2|]; eapply grow_good; [exact G1|]; rewrite Forall_forall in HG; auto).
      split; [eapply safe_post; [apply safe_set_genome; [apply (grow_inv _ _ _ _ _ G2)|exact Hg|exact Hb]|auto]|].
      destruct Hg as (_ & b & a & x & HV & _). eexists _, _. apply (set_genome_eq _ _ _ _ _ _ HV). }
  intros u s1 G1 _. cbv beta. pose proof (grow_goods _ _ _ _ _ _ G1 HG) as HG1. pose proof (grow_inv _ _ _ _ _ G1) as I1.
  eapply lives_bind; [apply lives_fit_all; auto|]. intros pop' s2 G2 (-> & HG2 & HH2). cbv beta zeta. pose proof (grow_inv _ _ _ _ _ G2) as I2.
  eapply lives_bind; [apply lives_ranked; auto|]. intros ranked s0 _ (-> & HP). cbv beta.
  eapply lives_bind with (Q := fun _ _ => True).
  { assert (HX : exists ms, mmap (fun r => let* bits := genome r in let* f := fitness r in ret (bits, nmul f (Fin (a_c c)))) (firstn (a_best c) ranked) s2 = (Ok ms, s2)).
    { assert (HI : incl (firstn (a_best c) ranked) pop) by (intros r Hr; apply In_firstn in Hr; eapply Permutation_in; eauto). clear - HI HH2. induction (firstn (a_best c) ranked) as [|r l IH]; [eexists; reflexivity|].
      destruct IH as (ms & E1); [intros x Hx; apply HI; right; exact Hx|]. cbn [mmap]. rewrite Forall_forall in HH2. destruct (HH2 r (HI r (or_introl eq_refl))) as (b & a & g1 & g2 & HS & _). apply shows_vw in HS as (x & HS).
      eexists. rewrite (bind_ok _ _ s2 (b, nmul (sfitness a) (Fin (a_c c))) s2); [rewrite (bind_ok _ _ _ _ _ E1); reflexivity|].
      rewrite (bind_ok _ _ _ _ _ (genome_eq _ _ _ _ _ HS)). rewrite (bind_ok _ _ _ _ _ (fitness_eq _ _ _ _ _ HS)). reflexivity. }
    destruct HX as (ms & E1). split; [eapply safe_pure; [exact I2|exact E1|exact Logic.I]|eexists _, _; exact E1]. }
  intros marks s3 G3 _. apply lives_ret; [apply (grow_inv _ _ _ _ _ G3)|exact Logic.I].
Qed.
Lemma lives_aco_run ini pop st s : inv s -> Forall (good s) pop -> pop <> [] -> pheromones_ok B ok (fun _ => True) st n ->
  lives false (aco_run B c L E ini pop st) (fun r _ => fst r = pop) s.
Proof.
  intros I HG HNp HO. unfold aco_run.
  assert (HPad : exists p, ph_pad B (if a_warm c then st else None) n = Ok p /\ ok (fun _ => True) n p).
  { destruct (a_warm c); [|apply (bo_fresh _ _ _ HB); auto]. destruct st as [p|]; [|apply (bo_fresh _ _ _ HB); auto].
    destruct HO as (k & HK & HO). eapply (bo_pad _ _ _ HB); eauto. }
  destruct HPad as (p & HE & HP). fold n. rewrite HE.
  eapply lives_bind with (Q := fun x s' => x = p /\ s' = s); [split; [apply (safe_lift E A false (Ok p) (fun x s' => x = p /\ s' = s)); auto|eexists _, _; reflexivity]|]. intros x s0 _ [-> ->]. cbv beta.
  eapply lives_bind; [apply lives_fit_all; auto|]. intros p0 s1 G1 (-> & H1 & H2). cbv beta.
  eapply lives_bind.
  - apply (lives_iterate E A false (aco_step B c E) (fun z s' => Forall (good s') (fst z) /\ fst z = pop /\ ok (fun _ => True) n (snd z))); [apply (grow_inv _ _ _ _ _ G1)|auto|].
    intros [q p1] s3 I3 (Ha & Hb & Hc). cbn [fst snd] in *. subst q. apply lives_aco_step; auto.
  - intros z s2 G2 (_ & Hz & _). apply lives_ret; [apply (grow_inv _ _ _ _ _ G2)|exact Hz].
Qed.
End Colony.
