(* Elitism of the genetic algorithm over generations (C23). *)
From Coq Require Import Lia Permutation Sorted.
From Verif Require Import PyNum PyList PyMon PyRng L_Num L_List L_Rng M_Matching M_Rule L_RuleProps M_Mixing L_Mixing L_MixingProps M_Solution S_Solution
  L_Heap L_HeapProps M_Composition L_Safe L_SafeFit L_Composition M_GenomeOps S_GenomeOps L_GenomeOps L_GenomeProps M_GA S_GA L_GA.

Lemma no_nan_fits {K L} (E : env L) (s : hst K) pop : (forall e k j, is_nan (efit E e k j) = false) ->
  Forall (honest E s) pop -> no_nan_fit s pop.
Proof.
  intros HN HH q f Hq Hf. rewrite Forall_forall in HH. destruct (honest_fits E s q HN (HH q Hq)) as (f' & H1 & H2).
  rewrite (has_fit_fun _ _ _ _ Hf H1). exact H2.
Qed.

Section Elitism.
Context {K : skind} {L : learner}.
Variable E : env L.
Hypothesis HD : deterministic (emix E).
Hypothesis HN : forall e k j, is_nan (efit E e k j) = false.
Implicit Types s : hst K.

Lemma ga_generation c pop s pop' s' : wf s -> Forall (honest E s) pop -> ga_step c E pop s = (Ok pop', s') ->
  wf s' /\ Forall (honest E s') pop' /\
  exists el new, pop' = el ++ new /\ fittest_k s (n_elitists (g_size c) (g_ratio c)) pop el /\ length new = g_size c /\
    Forall (fun r => ~ live s r) new /\
    (forall r bits a, In r el -> shows s r bits a -> shows s' r bits a).
Proof.
  intros W HH HE.
  assert (HG : Forall (good E nobody s) pop) by (eapply Forall_impl; [|exact HH]; intros r; apply honest_good).
  pose proof (safe_ga_step E nobody true c pop s (inv_nobody s W) HG) as HS. unfold safe in HS. rewrite HE in HS.
  destruct HS as [G (H1 & H2 & el & new & Hp & Hincl & Hlen & Hnew & Htop)].
  split; [apply (grow_inv _ _ _ _ _ G)|]. split; [exact H2|]. exists el, new. split; [exact Hp|].
  split; [apply Htop; apply (no_nan_fits E); auto|]. split; [auto|]. split; [auto|].
  intros r bits a Hr Hs. destruct G as (_ & _ & _ & _ & G). rewrite Forall_forall in HH.
  destruct (G eq_refl r (HH r (Hincl r Hr))) as [_ HC]. apply core_shows. rewrite HC by exact HD. apply core_shows. exact Hs.
Qed.

Lemma iterate_add {T} (f : T -> HSt K T) i j x s : iterate (i + j) f x s = (let* y := iterate i f x in iterate j f y) s.
Proof.
  revert x s. induction i as [|i IH]; intros x s; [reflexivity|]. cbn [iterate Nat.add].
  unfold bind at 1 2 3. destruct (f x s) as [[y|e] s1]; [|reflexivity]. rewrite IH. reflexivity.
Qed.

Definition beaten s (pop : list nat) s' (pop' : list nat) : Prop :=
  forall r f, In r pop -> has_fit s r f -> exists r' f', In r' pop' /\ has_fit s' r' f' /\ nle f f' = true.
Lemma beaten_trans s1 p1 s2 p2 s3 p3 : beaten s1 p1 s2 p2 -> beaten s2 p2 s3 p3 -> beaten s1 p1 s3 p3.
Proof.
  intros H1 H2 r f Hr Hf. destruct (H1 r f Hr Hf) as (r' & f' & Hr' & Hf' & HL).
  destruct (H2 r' f' Hr' Hf') as (r2 & f2 & Hr2 & Hf2 & HL2). exists r2, f2. split; auto. split; auto. eapply nle_trans; eauto.
Qed.
Lemma ga_step_beaten c pop s pop' s' : wf s -> Forall (honest E s) pop -> (1 <= n_elitists (g_size c) (g_ratio c))%nat ->
  ga_step c E pop s = (Ok pop', s') -> beaten s pop s' pop'.
Proof.
  intros W HH HK HE. destruct (ga_generation c pop s pop' s' W HH HE) as (_ & _ & el & new & -> & (Hlen & rest & HP & Htop) & _ & _ & Hsh).
  assert (HFit : forall r, In r pop -> exists f, has_fit s r f /\ is_nan f = false).
  { intros r Hr. rewrite Forall_forall in HH. apply (honest_fits E); auto. }
  intros r f Hr Hf. apply (Permutation_in r HP) in Hr as Hr'. apply in_app_or in Hr'. destruct Hr' as [Hr'|Hr'].
  - exists r, f. split; [apply in_or_app; auto|]. split.
    + destruct Hf as (bits & a & Hs & ->). exists bits, a. split; auto.
    + apply nle_refl. destruct (HFit r Hr) as (f' & H1 & H2). rewrite (has_fit_fun _ _ _ _ Hf H1). exact H2.
  - destruct el as [|e el].
    + exfalso. destruct pop; [inversion Hr|]. simpl in Hlen. destruct (n_elitists _ _); simpl in *; lia.
    + assert (He : In e pop) by (eapply Permutation_in; [symmetry; exact HP|left; reflexivity]).
      destruct (HFit e He) as (fe & Hfe & _). exists e, fe. split; [left; reflexivity|]. split.
      * destruct Hfe as (bits & a & Hs & ->). exists bits, a. split; auto. apply Hsh; [left; reflexivity|auto].
      * eapply Htop; eauto. left; reflexivity.
Qed.
Lemma ga_iterate_beaten c : (1 <= n_elitists (g_size c) (g_ratio c))%nat -> forall j pop s pop' s',
  wf s -> Forall (honest E s) pop -> iterate j (ga_step c E) pop s = (Ok pop', s') ->
  wf s' /\ Forall (honest E s') pop' /\ beaten s pop s' pop'.
Proof.
  intros HK. induction j as [|j IH]; intros pop s pop' s' W HH HE; cbn [iterate] in HE.
  - inversion HE; subst. split; auto. split; auto. intros r f Hr Hf. exists r, f. split; auto. split; auto.
    apply nle_refl. eapply no_nan_fits; eauto.
  - unfold bind in HE. destruct (ga_step c E pop s) as [[p1|e] s1] eqn:E1; [|discriminate].
    destruct (ga_generation c pop s p1 s1 W HH E1) as (W1 & HH1 & _).
    destruct (IH p1 s1 pop' s' W1 HH1 HE) as (W' & HH' & HB). split; auto. split; auto.
    eapply beaten_trans; [|exact HB]. eapply ga_step_beaten; eauto.
Qed.

Lemma fit_all_start pop s : wf s -> Forall (fun r => exists bits a, shows s r bits a /\ length bits = length (epool E)) pop ->
  forall pop0 s0, fit_all E pop s = (Ok pop0, s0) -> pop0 = pop /\ wf s0 /\ Forall (honest E s0) pop.
Proof.
  intros W HS pop0 s0 HE.
  assert (HG : Forall (good E nobody s) pop).
  { eapply Forall_impl; [|exact HS]. intros r (bits & a & H1 & H2). split; [intros []|]. apply shows_vw in H1 as (x & H1). exists bits, a, x. auto. }
  pose proof (safe_fit_all E nobody true s pop (inv_nobody s W) HG) as H. unfold safe in H. rewrite HE in H.
  destruct H as [G (H1 & H2 & H3)]. split; auto. split; auto. apply (grow_inv _ _ _ _ _ G).
Qed.
Lemma ga_run_beaten c ini i j pop s pop1 s1 pop2 s2 :
  wf s -> Forall (fun r => exists bits a, shows s r bits a /\ length bits = length (epool E)) pop ->
  (1 <= n_elitists (g_size c) (g_ratio c))%nat ->
  ga_run (with_iter c i) L E ini pop tt s = (Ok (pop1, tt), s1) ->
  ga_run (with_iter c (i + j)) L E ini pop tt s = (Ok (pop2, tt), s2) -> beaten s1 pop1 s2 pop2.
Proof.
  intros W HS HK. unfold ga_run, bind. destruct (fit_all E pop s) as [[p0|e] s0] eqn:EF; [|discriminate].
  destruct (fit_all_start pop s W HS p0 s0 EF) as (-> & W0 & HH0).
  cbn [with_iter g_iter]. change (ga_step (with_iter c i)) with (ga_step (L := L) (K := K) c).
  change (ga_step (with_iter c (i + j))) with (ga_step (L := L) (K := K) c).
  destruct (iterate i (ga_step c E) pop s0) as [[q1|e] t1] eqn:E1; [|discriminate].
  intros H; inversion H; subst q1 t1. pose proof (iterate_add (ga_step c E) i j pop s0) as HA. unfold bind in HA. rewrite E1 in HA. rewrite HA.
  destruct (iterate j (ga_step c E) pop1 s1) as [[q2|e] t2] eqn:E2; [|discriminate]. intros H2; inversion H2; subst q2 t2.
  destruct (ga_iterate_beaten c HK i pop s0 pop1 s1 W0 HH0 E1) as (W1 & HH1 & _).
  destruct (ga_iterate_beaten c HK j pop1 s1 pop2 s2 W1 HH1 E2) as (_ & _ & HB). exact HB.
Qed.
Lemma ga_run_size c ini pop s pop' s' :
  wf s -> Forall (fun r => exists bits a, shows s r bits a /\ length bits = length (epool E)) pop ->
  (n_elitists (g_size c) (g_ratio c) <= length pop)%nat -> (1 <= g_iter c)%nat ->
  ga_run c L E ini pop tt s = (Ok (pop', tt), s') ->
  length pop' = (n_elitists (g_size c) (g_ratio c) + g_size c)%nat /\ Forall (honest E s') pop'.
Proof.
  intros W HS HK HI. unfold ga_run, bind. destruct (fit_all E pop s) as [[p0|e] s0] eqn:EF; [|discriminate].
  destruct (fit_all_start pop s W HS p0 s0 EF) as (-> & W0 & HH0).
  destruct (iterate (g_iter c) (ga_step c E) pop s0) as [[q1|e] t1] eqn:E1; [|discriminate].
  intros H; inversion H; subst q1 t1. clear H EF HS.
  destruct (g_iter c) as [|n]; [lia|]. clear HI. revert pop s0 W0 HH0 HK E1. induction n as [|n IH]; intros pop s0 W0 HH0 HK E1.
  - cbn [iterate] in E1. unfold bind in E1. destruct (ga_step c E pop s0) as [[p1|e] s1] eqn:ES; [|discriminate]. inversion E1; subst p1 s1.
    destruct (ga_generation c pop s0 pop' s' W0 HH0 ES) as (W1 & HH1 & el & new & -> & (Hl & _) & Hn & _). split; auto.
    rewrite app_length, Hl, Hn. lia.
  - cbn [iterate] in E1. unfold bind at 1 in E1. destruct (ga_step c E pop s0) as [[p1|e] s1] eqn:ES; [|discriminate].
    destruct (ga_generation c pop s0 p1 s1 W0 HH0 ES) as (W1 & HH1 & el & new & -> & (Hl & _) & Hn & _).
    apply (IH (el ++ new) s1 W1 HH1); [rewrite app_length; lia|exact E1].
Qed.
End Elitism.

(* ----- the statements of C23 ----- *)
Lemma ga_elitists {K L} (E : env L) c pop (s : hst K) pop' s' :
  built s -> Forall (honest E s) pop -> deterministic (emix E) -> (forall e k j, is_nan (efit E e k j) = false) ->
  ga_step c E pop s = (Ok pop', s') ->
  exists el new, pop' = el ++ new /\ fittest_k s (n_elitists (g_size c) (g_ratio c)) pop el /\
    length new = g_size c /\ Forall (fun r => ~ live s r) new /\ Forall (honest E s') pop' /\
    (forall r bits a, In r el -> shows s r bits a -> shows s' r bits a).
Proof.
  intros HB HH HD HN HE. destruct (ga_generation E HD HN c pop s pop' s' (built_wf _ HB) HH HE) as (_ & H1 & el & new & H2 & H3 & H4 & H5 & H6).
  exists el, new. repeat (split; auto).
Qed.
Lemma ga_best_grows {K L} (E : env L) c ini i j pop (s : hst K) pop1 s1 pop2 s2 :
  built s -> Forall (fun r => exists bits a, shows s r bits a /\ length bits = length (epool E)) pop ->
  deterministic (emix E) -> (forall e k j, is_nan (efit E e k j) = false) ->
  (1 <= n_elitists (g_size c) (g_ratio c))%nat ->
  ga_run (with_iter c i) L E ini pop tt s = (Ok (pop1, tt), s1) ->
  ga_run (with_iter c (i + j)) L E ini pop tt s = (Ok (pop2, tt), s2) ->
  forall r f, In r pop1 -> has_fit s1 r f -> exists r' f', In r' pop2 /\ has_fit s2 r' f' /\ nle f f' = true.
Proof. intros HB HS HD HN HK H1 H2. exact (ga_run_beaten E HD HN c ini i j pop s pop1 s1 pop2 s2 (built_wf _ HB) HS HK H1 H2). Qed.
Lemma ga_size {K L} (E : env L) c ini pop (s : hst K) pop' s' :
  built s -> Forall (fun r => exists bits a, shows s r bits a /\ length bits = length (epool E)) pop ->
  deterministic (emix E) -> (forall e k j, is_nan (efit E e k j) = false) ->
  (n_elitists (g_size c) (g_ratio c) <= length pop)%nat -> (1 <= g_iter c)%nat ->
  ga_run c L E ini pop tt s = (Ok (pop', tt), s') ->
  length pop' = (n_elitists (g_size c) (g_ratio c) + g_size c)%nat /\ Forall (honest E s') pop'.
Proof. intros HB HS HD HN HK HI HE. exact (ga_run_size E HD HN c ini pop s pop' s' (built_wf _ HB) HS HK HI HE). Qed.
