(* Genetic algorithm and random search: safety and elitism. *)
From Coq Require Import Lia Permutation Sorted.
From Verif Require Import PyNum PyList PyMon PyRng L_Num L_List L_Rng M_Matching M_Rule M_Mixing L_Mixing M_Solution S_Solution
  L_Heap L_HeapProps M_Composition L_Safe L_SafeFit L_Composition M_GenomeOps S_GenomeOps L_GenomeOps L_GenomeProps M_GA.

Section GA.
Context {K : skind} {L : learner}.
Variable E : env L.
Variable A : nat -> Prop.
Implicit Types s : hst K.
Local Notation safe := (safe E A).
Local Notation good := (good E A).
Local Notation inv := (inv A).

Definition no_nan_fit s (rs : list nat) : Prop := forall q f, In q rs -> has_fit s q f -> is_nan f = false.
Lemma safe_ranked h s rs : inv s -> Forall (good s) rs ->
  safe h (by_fitness_desc rs) (fun rs' s' => s' = s /\ Permutation rs' rs /\
     (no_nan_fit s rs -> forall k, fittest_k s k rs (firstn k rs')) /\ (rs <> [] -> exists f r, In r rs /\ has_fit s r f)) s.
Proof.
  intros I HG. unfold by_fitness_desc. eapply safe_bind; [apply safe_keyed; auto|].
  intros ks s' G (-> & Hm & HF). apply safe_ret; auto. split; auto.
  assert (HP : Permutation (map snd (sort_desc key_lt ks)) rs) by (rewrite <- Hm; apply Permutation_map, sort_desc_perm).
  split; [exact HP|]. split.
  - intros HN k.
    assert (HS : StronglySorted (fun a b => nle (fst b) (fst a) = true) (sort_desc key_lt ks)).
    { apply (sort_desc_sorted (fun a : num * nat => fst a)). apply Forall_forall. intros x Hx. rewrite Forall_forall in HF.
      eapply HN; [|apply HF; exact Hx]. rewrite <- Hm. apply in_map; auto. }
    split; [rewrite firstn_length, (Permutation_length HP); reflexivity|].
    exists (skipn k (map snd (sort_desc key_lt ks))). rewrite firstn_skipn. split; [symmetry; exact HP|].
    intros a b fa fb Ha Hb Hfa Hfb. rewrite <- firstn_map in Ha || rewrite firstn_map in Ha. rewrite skipn_map in Hb.
    apply in_map_iff in Ha as (ka & <- & Ha). apply in_map_iff in Hb as (kb & <- & Hb).
    pose proof (sorted_firstn_skipn _ k _ HS ka kb Ha Hb) as HR.
    assert (HIa : In ka ks) by (apply In_firstn in Ha; apply sort_In in Ha; exact Ha).
    assert (HIb : In kb ks) by (apply In_skipn in Hb; apply sort_In in Hb; exact Hb).
    rewrite Forall_forall in HF. rewrite (has_fit_fun _ _ _ _ Hfa (HF ka HIa)), (has_fit_fun _ _ _ _ Hfb (HF kb HIb)). exact HR.
  - intros HNE. destruct ks as [|k ks]; [cbn in Hm; congruence|]. exists (fst k), (snd k). split; [rewrite <- Hm; left; reflexivity|].
    apply Forall_inv in HF. exact HF.
Qed.

Lemma Forall_firstn {T} (P : T -> Prop) k l : Forall P l -> Forall P (firstn k l).
Proof. rewrite !Forall_forall. intros H x Hx. apply H. eapply In_firstn; eauto. Qed.

Lemma div2_odd_len m : (2 * (m / 2) + (if Nat.odd m then 1 else 0) = m)%nat.
Proof.
  pose proof (Nat.div2_odd m) as H. rewrite Nat.div2_div in H. unfold Nat.b2n in H. lia.
Qed.

Lemma safe_ga_step h c pop s : inv s -> Forall (good s) pop ->
  safe h (ga_step c E pop) (fun pop' s' =>
    Forall (good s') pop' /\ Forall (honest E s') pop' /\
    exists el new, pop' = el ++ new /\ incl el pop /\ length new = g_size c /\ Forall (fun r => ~ live s r) new /\
      (no_nan_fit s pop -> fittest_k s (n_elitists (g_size c) (g_ratio c)) pop el)) s.
Proof.
  intros I HG. unfold ga_step.
  eapply safe_bind; [apply safe_ranked; auto|]. intros ranked s' _ (-> & HP & HT & _). cbv beta.
  set (k := n_elitists (g_size c) (g_ratio c)) in *.
  assert (HR : Forall (good s) ranked) by (eapply Permutation_Forall; [symmetry; exact HP|exact HG]).
  eapply safe_bind; [apply safe_select; auto|]. intros parents s1 G1 [HLp HIp]. cbv beta.
  assert (HGp : Forall (good s1) parents).
  { eapply grow_goods; [exact G1|]. exact (Forall_incl _ _ _ HG HIp). }
  pose proof (grow_inv _ _ _ _ _ G1) as I1.
  eapply safe_bind.
  { apply (safe_offspring E A h (crossover true (g_x c) (Fin (g_xrate c))) parents s1 I1 HGp).
    intros a b s' G Ha Hb. apply safe_crossover; [apply (grow_inv _ _ _ _ _ G)| |]; eapply grow_good; try exact G; eapply Forall_In; eauto. }
  intros children s2 G2 [HLc HGc]. cbv beta.
  pose proof (grow_inv _ _ _ _ _ G2) as I2.
  eapply safe_bind with (Q := fun cs s' => s' = s2 /\ length cs = g_size c /\ Forall (good s2) cs).
  { assert (HGc' : Forall (good s2) children) by (eapply Forall_impl; [|exact HGc]; intros r H; apply H).
    pose proof (div2_odd_len (g_size c)) as HD. rewrite HLp in HLc. destruct (Nat.odd (g_size c)).
    - destruct (nth_error (rev parents) 0) as [p|] eqn:Ep.
      + eapply safe_bind; [apply (safe_lift E A h _ (fun a s' => a = p /\ s' = s2)); auto; cbn; auto|].
        intros p' s' _ [-> ->]. apply safe_ret; auto. split; auto. split; [rewrite app_length; simpl; lia|].
        apply Forall_app. split; auto. constructor; [|constructor]. eapply grow_good; [exact G2|].
        eapply Forall_In; [exact HGp|]. apply in_rev. eapply nth_error_In; eauto.
      + eapply safe_bind; [apply (safe_lift E A h _ (fun a s' => True)); auto; cbn; apply notbad_index|].
        exfalso. apply nth_error_None in Ep. rewrite rev_length in Ep. destruct parents; simpl in Ep, HLp; [|lia]. rewrite <- HLp in HD. cbn in HD. lia.
    - apply safe_ret; auto. split; auto. split; auto. lia. }
  intros children' s' _ (-> & HLc' & HGc'). cbv beta.
  eapply safe_bind; [apply safe_mutate_all; auto|]. intros mutated s3 G3 (HLm & HGm & HNm). cbv beta.
  pose proof (grow_trans _ _ _ _ _ _ G1 (grow_trans _ _ _ _ _ _ G2 G3)) as G13.
  assert (HGall : Forall (good s3) (firstn k ranked ++ mutated)).
  { apply Forall_app. split; auto. apply Forall_firstn. eapply grow_goods; [exact G13|exact HR]. }
  eapply safe_post; [apply safe_fit_all; [apply (grow_inv _ _ _ _ _ G3)|exact HGall]|].
  intros pop' s4 G4 (-> & H1 & H2). split; auto. split; auto.
  exists (firstn k ranked), mutated. split; [reflexivity|]. split; [|split; [lia|split]].
  - intros x Hx. apply In_firstn in Hx. eapply Permutation_in; eauto.
  - eapply Forall_impl; [|exact HNm]. intros r Hr Hl. apply Hr. unfold live in *.
    pose proof (proj1 (proj2 G1)). pose proof (proj1 (proj2 G2)). lia.
  - intros HN. apply HT; auto.
Qed.

Lemma safe_ga_run h c ini pop s : inv s -> Forall (good s) pop ->
  safe h (ga_run c L E ini pop tt) (fun r s' => Forall (good s') (fst r) /\ Forall (honest E s') (fst r)) s.
Proof.
  intros I HG. unfold ga_run. eapply safe_bind; [apply safe_fit_all; auto|]. intros pop0 s0 G0 (-> & H1 & H2). cbv beta.
  eapply safe_bind.
  - apply (safe_iterate E A h (ga_step c E) (fun p s' => Forall (good s') p /\ Forall (honest E s') p)); [apply (grow_inv _ _ _ _ _ G0)|auto|].
    intros p s1 I1 [Hp1 Hp2]. eapply safe_post; [apply safe_ga_step; auto|]. intros p' s2 G2 (H3 & H4 & _). auto.
  - intros p s1 G1 H. apply safe_ret; [apply (grow_inv _ _ _ _ _ G1)|]. exact H.
Qed.

Lemma safe_rs_run h ni size ini pop s : inv s -> Forall (good s) pop ->
  safe h (rs_run ni size L E ini pop tt) (fun r s' => Forall (good s') (fst r) /\ Forall (honest E s') (fst r)) s.
Proof.
  intros I HG. apply safe_weak. unfold rs_run. eapply safe_bind; [apply safe_fit_all; auto|]. intros pop0 s0 G0 _. cbv beta.
  pose proof (grow_inv _ _ _ _ _ G0) as I0.
  eapply safe_bind.
  - apply (safe_times E A true (let* sols := times ni (let* r := init_call ini (length (epool E)) in fit E r) in fittest sols)
             (fun r s' => good s' r /\ honest E s' r)); auto.
    + intros y s1 s2 G [H1 H2]. split; [eapply grow_good; eauto|eapply grow_honest; eauto].
    + intros s1 G1. pose proof (grow_inv _ _ _ _ _ G1) as I1. eapply safe_bind.
      * apply (safe_times E A true (let* r := init_call ini (length (epool E)) in fit E r) (fun r s' => good s' r /\ honest E s' r)); auto.
        -- intros y s2 s3 G [H1 H2]. split; [eapply grow_good; eauto|eapply grow_honest; eauto].
        -- intros s2 G2. eapply safe_bind; [apply safe_init_call; apply (grow_inv _ _ _ _ _ G2)|].
           intros r s3 G3 (Hr & _). cbv beta. eapply safe_post; [apply safe_fit; [apply (grow_inv _ _ _ _ _ G3)|exact Hr]|].
           intros r' s4 _ (-> & H1 & H2). auto.
      * intros sols s2 G2 [_ HS]. cbv beta in *. eapply safe_post; [apply safe_fittest; [apply (grow_inv _ _ _ _ _ G2)|]|].
        -- eapply Forall_impl; [|exact HS]. intros r H; apply H.
        -- intros r s3 _ (-> & HIn & _). exact (Forall_In _ _ _ HS HIn).
  - intros new s1 G1 [_ HS]. cbv beta in *. apply safe_ret; [apply (grow_inv _ _ _ _ _ G1)|]. cbn [fst].
    split; (eapply Forall_impl; [|exact HS]; intros r H; apply H).
Qed.
End GA.

Lemma ga_contract c : contract (ga c) (fun _ _ => True).
Proof.
  split; [auto|]. intros L E A ini s pop i I HG _ _. destruct i. cbn [orun ga]. eapply safe_post; [apply safe_ga_run; auto|].
  intros r s' _ [H1 H2]. auto.
Qed.
Lemma rs_contract ni size : contract (rs ni size) (fun _ _ => True).
Proof.
  split; [auto|]. intros L E A ini s pop i I HG _ _. destruct i. cbn [orun rs]. eapply safe_post; [apply safe_rs_run; auto|].
  intros r s' _ [H1 H2]. auto.
Qed.
