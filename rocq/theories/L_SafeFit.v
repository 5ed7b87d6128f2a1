(* Safety of measuring and ranking solutions. *)
From Coq Require Import Lia.
From Verif Require Import PyNum PyList PyMon PyRng L_List L_Rng M_Matching M_Rule M_Mixing L_Mixing M_Solution S_Solution
  L_Heap L_HeapProps M_Composition L_Safe.

(* ----- sol_fit: determinism, exceptions ----- *)
Section SolFit.
Variable L : learner.
Lemma apply_filter_det f (rs : list (rule L)) g1 g2 :
  (f = KeepAll \/ exists n, f = NBestFitness n) ->
  fst (apply_filter L f rs g1) = fst (apply_filter L f rs g2) /\ snd (apply_filter L f rs g1) = g1.
Proof. intros [->|[n ->]]; split; reflexivity. Qed.
Lemma sol_fit_det mx sfit bits (pool : list (rule L)) X y g1 g2 :
  deterministic mx -> fst (sol_fit L mx sfit bits pool X y g1) = fst (sol_fit L mx sfit bits pool X y g2).
Proof.
  intros HD. unfold sol_fit, sol_predict. destruct (subpopulation L bits pool) as [rs|e]; [|reflexivity].
  unfold mixing_call. destruct rs as [|r rs].
  - destruct (_ || _); reflexivity.
  - destruct (apply_filter_det (mfilter mx) (r :: rs) g1 g2 HD) as [H _].
    destruct (apply_filter L (mfilter mx) (r :: rs) g1) as [[a1|e1] h1], (apply_filter L (mfilter mx) (r :: rs) g2) as [[a2|e2] h2];
      cbn [fst] in H; inversion H; subst; [|reflexivity].
    destruct (mix L mx X a2 true) as [p|e]; [|reflexivity]. destruct (_ || _); reflexivity.
Qed.

Lemma rmap_raise {A B} (f : A -> res B) l e :
  (forall x e, f x = Raise e -> ~ bad e) -> rmap f l = Raise e -> ~ bad e.
Proof.
  intros HF. induction l as [|x l IH]; [discriminate|]. cbn [rmap rbind]. destruct (f x) eqn:E; cbn [rbind].
  - destruct (rmap f l); [discriminate|]. cbn [rbind]. intros H; inversion H; subst. apply IH; auto.
  - intros H; inversion H; subst. eapply HF; eauto.
Qed.
Lemma bad_decide e : (forall e', e = e' -> e' <> AssertionError /\ e' <> Dangling) -> ~ bad e.
Proof. intros H [Ha|Ha]; destruct (H e eq_refl); congruence. Qed.
Ltac notbad := let H := fresh in intros [H|H]; discriminate H.
Lemma get_att_raise (r : rule L) e : get_att L r = Raise e -> ~ bad e.
Proof. unfold get_att. destruct (att r); cbn; intros H; inversion H; notbad. Qed.
Lemma fitness_of_raise (r : rule L) e : fitness_of L r = Raise e -> ~ bad e.
Proof.
  unfold fitness_of. destruct (get_att L r) eqn:E; cbn; intros H; inversion H; subst. eapply get_att_raise; eauto.
Qed.
Lemma scatter_raise n flags vals e : scatter n flags vals = Raise e -> ~ bad e.
Proof.
  unfold scatter. destruct (negb _); [intros H; inversion H; notbad|]. destruct (Nat.eqb _ _); [discriminate|].
  destruct vals as [|v [|v2 vals]]; intros H; inversion H; notbad.
Qed.
Lemma tau_raise mx dim (r : rule L) e : tau L mx dim r = Raise e -> ~ bad e.
Proof.
  unfold tau. destruct (get_att L r) as [a|e0] eqn:E; cbn [rbind].
  - destruct (error a) as [q| | |]; cbn [rbind]; try (destruct (qeq q 0); cbn [rbind]); intros H; inversion H; notbad.
  - intros H; inversion H; subst. eapply get_att_raise; eauto.
Qed.
Lemma local_pred_raise X (r : rule L) e : local_pred L X true r = Raise e -> ~ bad e.
Proof.
  unfold local_pred. destruct (get_att L r) as [a|e0] eqn:E; cbn [rbind].
  - destruct (scatter _ _ _) eqn:ES; cbn [rbind]; intros H; inversion H; subst. eapply scatter_raise; eauto.
  - intros H; inversion H; subst. eapply get_att_raise; eauto.
Qed.
Lemma mix_raise mx X (rs : list (rule L)) e : mix L mx X rs true = Raise e -> ~ bad e.
Proof.
  unfold mix. destruct (rmap (local_pred L X true) rs) eqn:E1; cbn [rbind].
  2: { intros H; inversion H; subst. eapply rmap_raise; [|eauto]. intros; eapply local_pred_raise; eauto. }
  destruct (rmap (tau L mx (row_len X)) rs) eqn:E2; cbn [rbind].
  2: { intros H; inversion H; subst. eapply rmap_raise; [|eauto]. intros; eapply tau_raise; eauto. }
  match goal with |- context [rmap ?f ?l] => destruct (rmap f l) eqn:E3 end; cbn [rbind]; intros H; inversion H; subst.
  eapply rmap_raise; [|eauto]. intros x e' H'. cbv beta in H'. eapply scatter_raise; eauto.
Qed.
Lemma sample_raise {A} (l : list A) k g e g' : sample l k g = (Raise e, g') -> ~ bad e.
Proof. unfold sample. destruct (Nat.ltb _ _); [intros H; inversion H; notbad|]. destruct (take_out k l g); discriminate. Qed.
Lemma apply_filter_raise f (rs : list (rule L)) g e g' : apply_filter L f rs g = (Raise e, g') -> ~ bad e.
Proof.
  destruct f as [|n|n|n]; cbn [apply_filter]; intros H.
  - discriminate.
  - destruct (rmap (fitness_of L) rs) eqn:E1; cbn [rbind] in H; inversion H; subst.
    eapply rmap_raise; [|eauto]. intros; eapply fitness_of_raise; eauto.
  - eapply sample_raise; eauto.
  - destruct (rmap (fitness_of L) rs) eqn:E1.
    + destruct (_ && _) in H; [eapply sample_raise; eauto|]. inversion H; notbad.
    + inversion H; subst. eapply rmap_raise; [|eauto]. intros; eapply fitness_of_raise; eauto.
Qed.
Lemma sol_fit_raise mx sfit bits (pool : list (rule L)) X y g e g' :
  length bits = length pool -> sol_fit L mx sfit bits pool X y g = (Raise e, g') -> ~ bad e.
Proof.
  intros HL. unfold sol_fit, sol_predict, subpopulation. rewrite HL, Nat.eqb_refl. cbn [assert_ rbind].
  unfold mixing_call. destruct (compress pool bits) as [|r rs].
  - destruct (_ || _); intros H; inversion H; notbad.
  - destruct (apply_filter L (mfilter mx) (r :: rs) g) as [[a|e1] g1] eqn:E1.
    + destruct (mix L mx X a true) eqn:E2.
      * destruct (_ || _); intros H; inversion H; notbad.
      * intros H; inversion H; subst. eapply mix_raise; eauto.
    + intros H; inversion H; subst. eapply apply_filter_raise; eauto.
Qed.
End SolFit.

Lemma bind_ok {S T U} (m : St S T) (k : T -> St S U) s a s' : m s = (Ok a, s') -> bind m k s = k a s'.
Proof. unfold bind. intros ->. reflexivity. Qed.
Lemma bind_raise {S T U} (m : St S T) (k : T -> St S U) s e s' : m s = (Raise e, s') -> bind m k s = (Raise e, s').
Proof. unfold bind. intros ->. reflexivity. Qed.

Section Safe.
Context {K : skind} {L : learner}.
Variable E : env L.
Variable A : nat -> Prop.
Implicit Types s : hst K.
Notation good := (good E A). Notation inv := (inv A). Notation safe := (safe E A). Notation grow := (grow E A).

Lemma safe_fit h s r : inv s -> good s r ->
  safe h (fit E r) (fun r' s' => r' = r /\ good s' r /\ honest E s' r) s.
Proof.
  intros I HG. apply safe_weak. pose proof HG as (HN & bits & a & x & HV & HL). unfold L_Safe.safe.
  pose proof (fit_eq E s r bits a x (proj1 I) HV) as HF.
  destruct (sol_fit L (emix E) (efit E) bits (epool E) (eX E) (ey E) (hrng s)) as [[a'|e] g'] eqn:EF.
  - destruct HF as (s' & -> & W' & HLen & _ & HV').
    assert (HH : honest E s' r).
    { exists bits, a', (hrng s), g'. split; [apply shows_vw; exists x; rewrite HV', Nat.eqb_refl; auto|auto]. }
    destruct (grow_at E A true s s' r bits (Some a') x) as [G G']; auto.
    intros _ (bits2 & a2 & g2 & g2' & HS & _ & HF2). split; auto. intros HD.
    apply shows_vw in HS as (x2 & HS). rewrite HV in HS. inversion HS; subst a bits2 x2.
    pose proof (sol_fit_det L (emix E) (efit E) bits (epool E) (eX E) (ey E) g2 (hrng s) HD) as HE.
    rewrite HF2, EF in HE. cbn in HE. inversion HE; subst a2.
    unfold core. rewrite HV', Nat.eqb_refl, HV. reflexivity.
  - rewrite HF. eapply sol_fit_raise; eauto.
Qed.
Lemma Forall2_eq_map {A1} (l m : list A1) (P : A1 -> Prop) : Forall2 (fun x y => y = x /\ P x) l m -> m = l /\ Forall P l.
Proof. induction 1 as [|x y l m [-> H] _ [-> IH]]; auto. Qed.
Lemma safe_fit_all h s rs : inv s -> Forall (good s) rs ->
  safe h (fit_all E rs) (fun rs' s' => rs' = rs /\ Forall (good s') rs /\ Forall (honest E s') rs) s.
Proof.
  intros I HG. apply safe_weak. unfold fit_all. eapply safe_post.
  - apply (safe_mmap E A true (fit E) (fun r r' s' => r' = r /\ good s' r /\ honest E s' r)); auto.
    + intros x y s1 s2 G (H1 & H2 & H3). split; auto. split; [eapply grow_good; eauto|eapply grow_honest; eauto].
    + intros r s' Hr G. apply safe_fit; [apply (grow_inv _ _ _ _ _ G)|].
      eapply grow_good; [exact G|]. rewrite Forall_forall in HG; auto.
  - cbv beta. intros rs' s' G H.
    apply (Forall2_eq_map _ _ (fun r => good s' r /\ honest E s' r)) in H as [-> H].
    split; auto. split; revert H; apply Forall_impl; intuition.
Qed.

(* reading fitnesses *)
Lemma has_fit_fun s r f1 f2 : has_fit s r f1 -> has_fit s r f2 -> f1 = f2.
Proof.
  intros (b1 & a1 & H1 & ->) (b2 & a2 & H2 & ->). apply shows_vw in H1 as (x1 & H1). apply shows_vw in H2 as (x2 & H2). congruence.
Qed.
Lemma keyed_eq s rs : inv s -> Forall (good s) rs ->
  (exists ks, keyed rs s = (Ok ks, s) /\ map snd ks = rs /\ Forall (fun k => has_fit s (snd k) (fst k)) ks) \/
  keyed rs s = (Raise AttributeError, s).
Proof.
  intros I HG. induction rs as [|r rs IH].
  - left. exists []. repeat split; constructor.
  - pose proof (Forall_inv HG) as Hr. apply Forall_inv_tail in HG. specialize (IH HG).
    destruct Hr as (HN & bits & a & x & HV & HL). unfold keyed in *. cbn [mmap].
    pose proof (fitness_eq _ _ _ _ _ HV) as HFit. destruct a as [a|].
    2: { right. rewrite (bind_raise _ _ _ AttributeError s); auto. rewrite (bind_raise _ _ _ AttributeError s); auto. }
    assert (H0 : (let* f := fitness r in ret (f, r)) s = (Ok (sfitness a, r), s)).
    { rewrite (bind_ok _ _ _ _ _ HFit). reflexivity. }
    rewrite (bind_ok _ _ _ _ _ H0).
    destruct IH as [(ks & HE & H1 & H2)|HE].
    2: { right. rewrite (bind_raise _ _ _ _ _ HE). reflexivity. }
    rewrite (bind_ok _ _ _ _ _ HE).
    left. exists ((sfitness a, r) :: ks). split; [reflexivity|]. split; [cbn; congruence|]. constructor; auto.
    exists bits, a. split; auto. apply shows_vw; eauto.
Qed.
Lemma safe_keyed h s rs : inv s -> Forall (good s) rs ->
  safe h (keyed rs) (fun ks s' => s' = s /\ map snd ks = rs /\ Forall (fun k => has_fit s (snd k) (fst k)) ks) s.
Proof.
  intros I HG. destruct (keyed_eq s rs I HG) as [(ks & HE & H1 & H2)|HE].
  - eapply safe_pure; [auto|exact HE|]. cbn. auto.
  - eapply safe_pure; [auto|exact HE|]. intros [H|H]; discriminate.
Qed.
Lemma safe_fittest h s rs : inv s -> Forall (good s) rs ->
  safe h (fittest rs) (fun r s' => s' = s /\ In r rs /\
     ((forall q f, In q rs -> has_fit s q f -> is_nan f = false) ->
      exists f, has_fit s r f /\ forall q f', In q rs -> has_fit s q f' -> nle f' f = true)) s.
Proof.
  intros I HG. unfold fittest. eapply safe_bind; [apply safe_keyed; auto|].
  intros ks s' G (-> & Hm & HF). cbv beta. destruct (pymax key_lt ks) as [k|] eqn:EM.
  - eapply safe_bind; [apply safe_lift with (Q := fun a s' => s' = s /\ a = k); cbn; auto|].
    intros k' s' _ [-> ->]. apply safe_ret; auto. pose proof (pymax_In _ _ _ EM) as HI.
    split; auto. split; [rewrite <- Hm; apply in_map; auto|].
    intros HN. exists (fst k). rewrite Forall_forall in HF. split; [apply HF; auto|].
    assert (HNk : Forall (fun x => is_nan (fst x) = false) ks).
    { apply Forall_forall. intros x Hx. eapply HN; [rewrite <- Hm; apply in_map; exact Hx|apply HF; auto]. }
    intros q f' Hq Hf'. rewrite <- Hm in Hq. apply in_map_iff in Hq as (kq & <- & Hkq).
    rewrite (has_fit_fun s _ _ _ Hf' (HF _ Hkq)).
    unfold key_lt in EM. exact (pymax_ge fst ks k HNk EM kq Hkq).
  - eapply safe_bind; [apply safe_lift with (Q := fun _ _ => False); cbn; auto; intros [H|H]; discriminate|].
    intros a s' _ [].
Qed.
Lemma safe_by_fitness h s rs : inv s -> Forall (good s) rs ->
  safe h (by_fitness_desc rs) (fun rs' s' => s' = s /\ Permutation.Permutation rs' rs) s.
Proof.
  intros I HG. unfold by_fitness_desc. eapply safe_bind; [apply safe_keyed; auto|].
  intros ks s' G (-> & Hm & HF). apply safe_ret; auto. split; auto. rewrite <- Hm.
  apply Permutation.Permutation_map. apply sort_desc_perm.
Qed.
Lemma safe_fitnesses h s rs : inv s -> Forall (good s) rs ->
  safe h (fitnesses rs) (fun fs s' => s' = s /\ Forall2 (has_fit s) rs fs) s.
Proof.
  intros I HG. unfold fitnesses.
  assert (H : (exists fs, mmap fitness rs s = (Ok fs, s) /\ Forall2 (has_fit s) rs fs) \/ mmap fitness rs s = (Raise AttributeError, s)).
  { induction rs as [|r rs IH]; [left; exists []; split; [reflexivity|constructor]|].
    pose proof (Forall_inv HG) as (HN & bits & a & x & HV & HL). apply Forall_inv_tail in HG.
    cbn [mmap]. unfold bind. rewrite (fitness_eq _ _ _ _ _ HV). destruct a as [a|]; [|right; reflexivity].
    destruct (IH HG) as [(fs & -> & HF)| ->]; [|right; reflexivity].
    left. eexists. split; [reflexivity|]. constructor; auto. exists bits, a. split; auto. apply shows_vw; eauto. }
  destruct H as [(fs & HE & HF)|HE].
  - eapply safe_pure; [auto|exact HE|]. cbn. auto.
  - eapply safe_pure; [auto|exact HE|]. intros [H|H]; discriminate.
Qed.
Lemma honest_fit s r : honest E s r -> exists f, has_fit s r f.
Proof. intros (bits & a & g & g' & HS & _). exists (sfitness a), bits, a. auto. Qed.
End Safe.

Definition nobody : nat -> Prop := fun _ => False.
Lemma inv_nobody {K} (s : hst K) : wf s -> inv nobody s.
Proof. intros W. split; auto. intros r []. Qed.
Lemma honest_good {K L} (E : env L) (s : hst K) r : honest E s r -> good E nobody s r.
Proof.
  intros (bits & a & g & g' & HS & HL & _). split; [intros []|]. apply shows_vw in HS as (x & HS). exists bits, (Some a), x. auto.
Qed.
Lemma honest_fits {K L} (E : env L) (s : hst K) r : (forall e k j, is_nan (efit E e k j) = false) -> honest E s r ->
  exists f, has_fit s r f /\ is_nan f = false.
Proof.
  intros HN (bits & a & g & g' & HS & HL & HF). exists (sfitness a). split; [exists bits, a; auto|].
  unfold sol_fit in HF. destruct (sol_predict L (emix E) bits (epool E) (eX E) true g) as [[p|e] g1]; [|discriminate].
  destruct (_ || _); [discriminate|]. inversion HF; subst. cbn. apply HN.
Qed.

Lemma keyed_total {K} (s : hst K) rs : Forall (fun r => exists f, has_fit s r f) rs ->
  exists ks, keyed rs s = (Ok ks, s) /\ map snd ks = rs /\ Forall (fun k => has_fit s (snd k) (fst k)) ks.
Proof.
  unfold keyed. induction 1 as [|r rs (f & bits & a & HS & ->) _ (ks & HE & HM & HF)]; [exists []; cbn; auto|].
  assert (Hf : has_fit s r (sfitness a)) by (exists bits, a; auto).
  exists ((sfitness a, r) :: ks). cbn [mmap map snd]. apply shows_vw in HS as (x & HS).
  assert (H1 : (let* f := fitness r in ret (f, r)) s = (Ok (sfitness a, r), s)).
  { rewrite (bind_ok _ _ _ _ _ (fitness_eq _ _ _ _ _ HS)). reflexivity. }
  rewrite (bind_ok _ _ _ _ _ H1), (bind_ok _ _ _ _ _ HE). split; [reflexivity|]. split; [congruence|]. constructor; auto.
Qed.
Lemma fittest_best {K} (s : hst K) rs : rs <> [] -> Forall (fun r => exists f, has_fit s r f /\ is_nan f = false) rs ->
  exists r f, fittest rs s = (Ok r, s) /\ In r rs /\ has_fit s r f /\ forall q f', In q rs -> has_fit s q f' -> nle f' f = true.
Proof.
  intros HE HF. destruct (keyed_total s rs) as (ks & HK & HM & HKF).
  { revert HF. apply Forall_impl. intros r (f & H & _). eauto. }
  assert (Hne : ks <> []) by (intros ->; apply HE; rewrite <- HM; reflexivity).
  destruct (pymax_some key_lt ks Hne) as (k & Hk). exists (snd k), (fst k). unfold fittest. rewrite (bind_ok _ _ _ _ _ HK). unfold bind, lift. rewrite Hk.
  split; [reflexivity|]. pose proof (pymax_In _ _ _ Hk) as HIn. split; [rewrite <- HM; apply in_map; auto|].
  rewrite Forall_forall in HKF. split; [apply HKF; auto|]. intros q f' Hq Hf'.
  rewrite <- HM in Hq. apply in_map_iff in Hq as (k' & <- & Hk'). rewrite (has_fit_fun _ _ _ _ Hf' (HKF _ Hk')).
  apply (pymax_ge fst ks k); auto. apply Forall_forall. intros k2 Hk2. rewrite Forall_forall in HF.
  destruct (HF (snd k2)) as (f & H1 & H2); [rewrite <- HM; apply in_map; auto|]. rewrite (has_fit_fun _ _ _ _ (HKF _ Hk2) H1). exact H2.
Qed.
