(* Ageing (C28). *)
From Coq Require Import Lia Permutation.
From Verif Require Import PyNum PyList PyMon PyRng PyStat L_Num L_List L_Rng M_Matching M_Rule L_RuleProps M_Mixing M_Solution S_Solution
  L_Heap L_HeapProps M_Composition L_Safe L_SafeFit M_GenomeOps S_GenomeOps L_GenomeOps L_GenomeProps M_GA L_GA L_GAProps M_Sas S_Sas L_Saga.
Local Notation hs := (hst sas_sol).
Local Notation vws := (vw (K := sas_sol)).

Lemma measured_vw (s : hs) r : measured s r -> exists bits a (x : Z), vws s r = Some (bits, Some a, x).
Proof. intros (f & bits & a & HS & _). apply shows_vw in HS as (x & HS). eauto. Qed.
Lemma vw_measured (s : hs) r bits a (x : Z) : vws s r = Some (bits, Some a, x) -> has_fit s r (sfitness a) /\ has_ext s r x.
Proof.
  intros H. split.
  - exists bits, a. split; auto. apply shows_vw. eauto.
  - apply (vw_inv (K := sas_sol)) in H as (o & H1 & _ & _ & H2). exists o. auto.
Qed.
Lemma has_ext_vw (s : hs) r bits a (x y : Z) : vws s r = Some (bits, a, x) -> has_ext s r y -> y = x.
Proof. intros H (o & Ho & <-). apply (vw_inv (K := sas_sol)) in H as (o' & H1 & _ & _ & H2). congruence. Qed.

Lemma age_loop (d : num -> Z) l : forall (s : hs), wf s -> NoDup l -> Forall (measured s) l ->
  exists s', miter (fun r => let* age := get_ext (K := sas_sol) r in let* f := fitness r in
                             set_ext (K := sas_sol) r (age + d f)%Z) l s = (Ok tt, s') /\
    wf s' /\ length (sols s') = length (sols s) /\ hrng s' = hrng s /\
    (forall r bits a (x : Z), In r l -> vws s r = Some (bits, Some a, x) -> vws s' r = Some (bits, Some a, (x + d (sfitness a))%Z)) /\
    (forall r, ~ In r l -> vws s' r = vws s r).
Proof.
  induction l as [|r l IH]; intros s W ND HM.
  - exists s. cbn. split; auto. split; auto. split; auto. split; auto. split; [intros ? ? ? ? []|auto].
  - apply NoDup_cons_iff in ND as [HNi ND]. pose proof (Forall_inv HM) as Hr. apply Forall_inv_tail in HM.
    destruct (measured_vw _ _ Hr) as (bits & a & x & HV).
    set (s1 := reset s r (fun o : sol sas_sol => mkSol (gref o) (satt o) ((x + d (sfitness a))%Z : ext sas_sol))).
    assert (W1 : wf s1) by (apply wf_reset; auto).
    assert (HV1 : forall i, vws s1 i = if Nat.eqb i r then Some (bits, Some a, (x + d (sfitness a))%Z : ext sas_sol) else vws s i).
    { intros i. unfold s1. rewrite vw_reset; auto. destruct (Nat.eqb_spec i r); auto.
      pose proof (vw_inv (K := sas_sol) _ _ _ _ _ HV) as (o & H1 & _ & H2 & _). rewrite H1, HV. cbn [satt sext]. rewrite H2. reflexivity. }
    assert (HL1 : length (sols s1) = length (sols s)).
    { unfold s1, reset. pose proof (vw_inv (K := sas_sol) _ _ _ _ _ HV) as (o & H1 & _). rewrite H1. cbn [sols]. apply update_length. }
    assert (HR1 : hrng s1 = hrng s).
    { unfold s1, reset. pose proof (vw_inv (K := sas_sol) _ _ _ _ _ HV) as (o & H1 & _). rewrite H1. reflexivity. }
    assert (HE : (let* age := get_ext (K := sas_sol) r in let* f := fitness r in set_ext (K := sas_sol) r (age + d f)%Z) s = (Ok tt, s1)).
    { rewrite (bind_ok _ _ _ _ _ (get_ext_eq (K := sas_sol) _ _ _ _ _ HV)). rewrite (bind_ok _ _ _ _ _ (fitness_eq (K := sas_sol) _ _ _ _ _ HV)).
      apply (set_ext_eq (K := sas_sol) s r bits (Some a) x _ HV). }
    assert (HM1 : Forall (measured s1) l).
    { apply Forall_forall. intros q Hq. rewrite Forall_forall in HM. destruct (measured_vw _ _ (HM q Hq)) as (b & a' & x' & Hv).
      exists (sfitness a'). eapply vw_measured. rewrite HV1. destruct (Nat.eqb_spec q r) as [->|]; [contradiction|exact Hv]. }
    destruct (IH s1 W1 ND HM1) as (s' & HE' & W' & HL' & HR' & HIn & HOut).
    exists s'. cbn [miter]. rewrite (bind_ok _ _ _ _ _ HE). split; [exact HE'|]. split; [auto|]. split; [congruence|]. split; [congruence|]. split.
    + intros q b a' x' [<-|Hq] Hv.
      * rewrite HOut by auto. rewrite HV1, Nat.eqb_refl. rewrite HV in Hv. inversion Hv; subst. reflexivity.
      * apply HIn; auto. rewrite HV1. destruct (Nat.eqb_spec q r) as [->|]; [contradiction|exact Hv].
    + intros q Hq. rewrite HOut by (intros H; apply Hq; right; auto). rewrite HV1. destruct (Nat.eqb_spec q r) as [->|]; [exfalso; apply Hq; left; auto|auto].
Qed.
Lemma keep_loop (s : hs) l : Forall (measured s) l ->
  exists keep, mmap (fun r => let* age := get_ext (K := sas_sol) r in ret (if Z.ltb 0 age then [r] else [])) l s = (Ok keep, s) /\
    (forall r, In r (concat keep) <-> In r l /\ alive s r) /\ (NoDup l -> NoDup (concat keep)) /\ (length (concat keep) <= length l)%nat.
Proof.
  induction 1 as [|r l Hr HM (keep & HE & HI & HN & HL)].
  - exists []. cbn. split; auto. split; [intros r; split; [intros []|intros [[] _]]|]. split; auto.
  - destruct (measured_vw _ _ Hr) as (bits & a & x & HV). exists ((if Z.ltb 0 x then [r] else []) :: keep).
    split.
    { cbn [mmap]. assert (H1 : (let* age := get_ext (K := sas_sol) r in ret (if Z.ltb 0 age then [r] else [])) s = (Ok (if Z.ltb 0 x then [r] else []), s)).
      { rewrite (bind_ok _ _ _ _ _ (get_ext_eq (K := sas_sol) _ _ _ _ _ HV)). reflexivity. }
      rewrite (bind_ok _ _ _ _ _ H1), (bind_ok _ _ _ _ _ HE). reflexivity. }
    cbn [concat]. destruct (vw_measured _ _ _ _ _ HV) as [_ HX].
    assert (HA : alive s r <-> (0 < x)%Z).
    { split; [|intros H; exists x; auto]. intros (y & Hy & Hp). rewrite (has_ext_vw _ _ _ _ _ _ HV Hy) in Hp. exact Hp. }
    destruct (Z.ltb_spec 0 x) as [Hp|Hp]; cbn [app].
    + split; [|split].
      * intros q. cbn [In]. rewrite HI. split; [intros [<-|[H1 H2]]; split; auto; apply HA; auto|intros [[<-|H1] H2]; auto].
      * intros ND. apply NoDup_cons_iff in ND as [H1 H2]. constructor; auto. rewrite HI. intros [H _]; auto.
      * cbn; lia.
    + split; [|split].
      * intros q. cbn [In]. rewrite HI. split; [intros [H1 H2]; auto|intros [[<-|H1] H2]; auto]. apply HA in H2. lia.
      * intros ND. apply NoDup_cons_iff in ND as [H1 H2]. auto.
      * cbn; lia.
Qed.

(* what ageing does *)
Lemma ageing_eq initial pop (s : hs) : wf s -> NoDup pop -> pop <> [] -> (1 <= initial)%nat -> Forall (measured s) pop ->
  exists parents s' fs low top, Forall2 (has_fit s) pop fs /\ In low pop /\ has_fit s low top /\
    ageing initial pop s = (Ok parents, s') /\ wf s' /\ length (sols s') = length (sols s) /\ hrng s' = hrng s /\
    NoDup parents /\ incl parents pop /\ (length parents <= length pop)%nat /\
    (forall r bits a (x : Z), In r pop -> vws s r = Some (bits, Some a, x) ->
       let x' := (x + ageing_by (nmedian fs) top (Nat.leb (initial * 5) (length pop)) (sfitness a))%Z in
       vws s' r = Some (bits, Some a, x') /\ (In r parents <-> (0 < x')%Z)) /\
    (forall r, ~ In r pop -> vws s' r = vws s r).
Proof.
  intros W ND NE HI HM.
  assert (HF : exists fs, Forall2 (has_fit s) pop fs).
  { clear - HM. induction HM as [|r l (f & Hf) _ (fs & IH)]; [exists []; constructor|]. exists (f :: fs). constructor; auto. }
  destruct HF as (fs & HF). unfold ageing. rewrite (bind_ok _ _ _ _ _ (fitnesses_eq _ _ _ HF)). cbv zeta.
  destruct (keyed_total s pop HM) as (ks & HK & Hm & HKF).
  assert (HB : by_fitness_desc pop s = (Ok (map snd (sort_desc key_lt ks)), s)) by (unfold by_fitness_desc; rewrite (bind_ok _ _ _ _ _ HK); reflexivity).
  rewrite (bind_ok _ _ _ _ _ HB). set (ranked := map snd (sort_desc key_lt ks)).
  assert (HP : Permutation ranked pop) by (unfold ranked; rewrite <- Hm; apply Permutation_map, sort_desc_perm).
  destruct (nth_error (rev (firstn (initial * 5) ranked)) 0) as [low|] eqn:EL.
  2:{ exfalso. apply nth_error_None in EL. rewrite rev_length, firstn_length, (Permutation_length HP) in EL. destruct pop; [congruence|]. cbn [length] in EL. lia. }
  rewrite (bind_ok (lift (of_option IndexError (Some low))) _ _ low s eq_refl).
  assert (Hlow : In low pop) by (apply nth_error_In, in_rev, In_firstn in EL; eapply Permutation_in; eauto).
  pose proof HM as HM'. rewrite Forall_forall in HM'. destruct (measured_vw _ _ (HM' low Hlow)) as (bl & al & xl & HVl).
  rewrite (bind_ok _ _ _ _ _ (fitness_eq (K := sas_sol) _ _ _ _ _ HVl)). cbn [of_option]. set (top := sfitness al).
  destruct (age_loop (ageing_by (nmedian fs) top (Nat.leb (initial * 5) (length pop))) pop s W ND HM) as (s' & HE & W' & HL' & HR' & HIn & HOut).
  rewrite (bind_ok _ _ _ _ _ HE).
  assert (HM1 : Forall (measured s') pop).
  { apply Forall_forall. intros q Hq. destruct (measured_vw _ _ (HM' q Hq)) as (b & a' & x' & Hv). exists (sfitness a').
    eapply vw_measured. apply HIn; eauto. }
  destruct (keep_loop s' pop HM1) as (keep & HK2 & HKI & HKN & HKL). rewrite (bind_ok _ _ _ _ _ HK2).
  exists (concat keep), s', fs, low, top. split; [auto|]. split; [auto|]. split; [apply (vw_measured _ _ _ _ _ HVl)|]. split; [reflexivity|].
  split; [auto|]. split; [auto|]. split; [auto|]. split; [auto|]. split; [intros r Hr; apply HKI in Hr; apply Hr|]. split; [auto|]. split; [|exact HOut].
  intros r b a x Hr Hv. set (x' := (x + ageing_by (nmedian fs) top (Nat.leb (initial * 5) (length pop)) (sfitness a))%Z). pose proof (HIn r b a x Hr Hv) as Hv'. split; [exact Hv'|]. rewrite HKI.
  destruct (vw_measured _ _ _ _ _ Hv') as [_ HX]. split.
  - intros [_ (y & Hy & Hp)]. rewrite (has_ext_vw _ _ _ _ _ _ Hv' Hy) in Hp. exact Hp.
  - intros Hp. split; auto. exists x'. auto.
Qed.
Lemma ageing_by_low med top f : (-2 <= ageing_by med top false f)%Z.
Proof. unfold ageing_by. cbn [andb]. destruct (nlt med f); lia. Qed.

Lemma newborns_survive initial pop (s : hs) : built s -> NoDup pop -> Forall (measured s) pop ->
  pop <> [] -> (length pop < 5 * initial)%nat ->
  exists parents s', ageing initial pop s = (Ok parents, s') /\ forall r, In r pop -> newborn s r -> In r parents.
Proof.
  intros HB ND HM NE HC. assert (HI : (1 <= initial)%nat) by (destruct pop; [congruence|cbn in HC; lia]).
  destruct (ageing_eq initial pop s (built_wf _ HB) ND NE HI HM) as (parents & s' & fs & low & top & _ & _ & _ & HE & _ & _ & _ & _ & _ & _ & HA & _).
  exists parents, s'. split; auto. intros r Hr HN. rewrite Forall_forall in HM. destruct (measured_vw _ _ (HM r Hr)) as (b & a & x & Hv).
  apply (HA r b a x Hr Hv). rewrite <- (has_ext_vw _ _ _ _ _ _ Hv HN).
  replace (Nat.leb (initial * 5) (length pop)) with false by (symmetry; apply Nat.leb_gt; lia).
  pose proof (ageing_by_low (nmedian fs) top (sfitness a)). lia.
Qed.
Lemma best_survives initial pop (s : hs) fs r f : built s -> NoDup pop -> (1 <= initial)%nat ->
  Forall2 (has_fit s) pop fs -> Forall (fun f => is_nan f = false) fs ->
  In r pop -> alive s r -> has_fit s r f -> (forall f', In f' fs -> nle f' f = true) -> nlt (nmedian fs) f = true ->
  exists parents s', ageing initial pop s = (Ok parents, s') /\ In r parents /\ forall x, has_ext s r x -> has_ext s' r x.
Proof.
  intros HB ND HI HF HN Hr (x & HX & Hp) Hf Hbest Hmed. assert (NE : pop <> []) by (intros ->; inversion Hr).
  assert (HM : Forall (measured s) pop).
  { clear - HF. induction HF; constructor; auto. eexists; eauto. }
  destruct (ageing_eq initial pop s (built_wf _ HB) ND NE HI HM) as (parents & s' & fs' & low & top & HF' & Hlow & Htop & HE & _ & _ & _ & _ & _ & _ & HA & _).
  assert (HFF : fs' = fs).
  { clear - HF HF'. revert fs' HF'. induction HF as [|q g l fs H1 _ IH]; intros fs' H; inversion H; subst; auto. f_equal; [eapply has_fit_fun; eauto|auto]. }
  subst fs'. exists parents, s'. split; auto.
  rewrite Forall_forall in HM. destruct (measured_vw _ _ (HM r Hr)) as (b & a & x' & Hv).
  pose proof (has_ext_vw _ _ _ _ _ _ Hv HX) as ->. destruct (vw_measured _ _ _ _ _ Hv) as [Hfa _].
  pose proof (has_fit_fun _ _ _ _ Hf Hfa) as ->. destruct (HA r b a x' Hr Hv) as [HV' HIn].
  assert (HIt : In top fs).
  { clear - HF Hlow Htop. induction HF as [|q g l fs H1 _ IH]; [inversion Hlow|]. destruct Hlow as [->|Hl]; [left; eapply has_fit_fun; eauto|right; auto]. }
  assert (H0 : forall c, ageing_by (nmedian fs) top c (sfitness a) = 0%Z).
  { intros c. unfold ageing_by. rewrite Hmed. assert (HT : nlt (sfitness a) top = false).
    { specialize (Hbest top HIt). rewrite Forall_forall in HN. pose proof (HN _ HIt). destruct (nlt (sfitness a) top) eqn:E; auto. exfalso.
      rewrite (nle_not_nlt _ _ Hbest) in E; discriminate. }
    rewrite HT, andb_false_r. reflexivity. }
  rewrite H0, Z.add_0_r in HIn, HV'. split; [apply HIn; auto|]. intros y Hy. rewrite (has_ext_vw _ _ _ _ _ _ Hv Hy). apply (vw_measured _ _ _ _ _ HV').
Qed.

(* ----- one generation ----- *)
Lemma fit_has_ext {K L} (E : env L) r (s : hst K) q y : has_ext s q y -> has_ext (snd (fit E r s)) q y.
Proof.
  intros (o & Ho & <-). unfold fit, genome, get_arr, get_sol, rnd, put_sol, bind, ret.
  destruct (nth_error (sols s) r) as [o1|] eqn:E1; cbn [of_option]; [|exists o; auto].
  destruct (nth_error (garr s) (gref o1)) as [b|] eqn:E2; cbn [of_option]; [|exists o; auto].
  destruct (sol_fit L (emix E) (efit E) b (epool E) (eX E) (ey E) (hrng s)) as [[a|e] g]; cbn [sols]; [|exists o; auto].
  rewrite E1. cbn [of_option snd]. unfold has_ext. cbn [sols]. rewrite update_nth. destruct (Nat.eqb_spec r q) as [->|H].
  - rewrite E1. rewrite E1 in Ho. injection Ho as ->. eexists. split; reflexivity.
  - exists o. auto.
Qed.
Lemma fit_all_has_ext {K L} (E : env L) rs : forall (s : hst K) q y, has_ext s q y -> has_ext (snd (fit_all E rs s)) q y.
Proof.
  unfold fit_all. induction rs as [|r rs IH]; intros s q y H; [exact H|]. cbn [mmap]. unfold bind at 1.
  pose proof (fit_has_ext E r s q y H) as H1. destruct (fit E r s) as [[a|e] s1]; [|exact H1]. cbn [snd] in H1.
  unfold bind. pose proof (IH s1 q y H1) as H2. destruct (mmap (fit E) rs s1) as [[l|e] s2]; exact H2.
Qed.
Lemma bit_flips_births rate rs : forall (s : hs), wf s -> Forall (live s) rs ->
  exists ms s', mmap (bit_flips rate) rs s = (Ok ms, s') /\ more s s' /\ length ms = length rs /\ NoDup ms /\
    Forall (fun r => ~ live s r) ms /\ Forall (newborn s') ms.
Proof.
  induction rs as [|r rs IH]; intros s W HL.
  - exists [], s. cbn. split; auto. split; [apply more_refl; auto|]. repeat split; auto; constructor.
  - pose proof (Forall_inv HL) as Hr. apply Forall_inv_tail in HL. destruct (live_vw _ _ W Hr) as (b & a & x & HV).
    pose proof (bit_flips_eq rate s r b a x W HV) as HE. cbv zeta in HE.
    set (s1 := push (with_r s (snd (randoms (length b) (hrng s)))) (flip_bits rate (fst (randoms (length b) (hrng s))) b) None (ext_copy sas_sol x)) in *.
    assert (M1 : more s s1) by (eapply more_trans; [apply more_with_r; exact W|apply more_push; exact W]).
    assert (HL1 : Forall (live s1) rs) by (eapply Forall_impl; [|exact HL]; intros q; apply more_live; auto).
    destruct (IH s1 (more_wf _ _ M1) HL1) as (ms & s' & HE' & M' & HLen & ND & HNew & HB).
    assert (Hlive : live s1 (length (sols s))) by (unfold live, s1, push; cbn [sols]; rewrite app_length; cbn; lia).
    exists (length (sols s) :: ms), s'. cbn [mmap]. rewrite (bind_ok _ _ _ _ _ HE), (bind_ok _ _ _ _ _ HE'). split; [reflexivity|].
    split; [eapply more_trans; eauto|]. split; [cbn; lia|]. split.
    + constructor; auto. intros Hin. rewrite Forall_forall in HNew. exact (HNew _ Hin Hlive).
    + split.
      * constructor; [unfold live; lia|]. eapply Forall_impl; [|exact HNew]. cbv beta. intros q Hq Hl. apply Hq. eapply more_live; eauto.
      * constructor; auto. assert (HV1 : vws s1 (length (sols s)) = Some (flip_bits rate (fst (randoms (length b) (hrng s))) b, None, 3%Z : ext sas_sol)).
        { unfold s1. rewrite vw_push by exact W. cbn [with_r sols]. rewrite Nat.eqb_refl. reflexivity. }
        pose proof (more_vw _ _ _ _ M' HV1) as HV2. apply (vw_inv (K := sas_sol)) in HV2 as (o & H1 & _ & _ & H2). exists o. auto.
Qed.
Lemma two_in (a b : nat) l : a <> b -> In a l -> In b l -> (2 <= length l)%nat.
Proof.
  intros H Ha Hb. destruct l as [|x [|y l]]; cbn in *; try lia; intuition congruence.
Qed.
Lemma sas_generation {L} (E : env L) c pop k (s : hs) pop' k' s' a b :
  built s -> NoDup pop -> Forall (honest E s) pop -> (length pop < 5 * sa_init c)%nat ->
  In a pop -> In b pop -> a <> b -> newborn s a -> newborn s b ->
  sas_step c E (pop, k) s = (Ok (pop', k'), s') ->
  (2 <= k')%nat /\ NoDup pop' /\ Forall (honest E s') pop' /\ (length pop' <= 2 * length pop)%nat /\
  exists a' b', In a' pop' /\ In b' pop' /\ a' <> b' /\ newborn s' a' /\ newborn s' b'.
Proof.
  intros HB ND HH HC Ha Hb Hab HNa HNb HE. pose proof (built_wf _ HB) as W.
  assert (HM : Forall (measured s) pop) by (eapply Forall_impl; [|exact HH]; intros r; apply honest_fit).
  assert (NE : pop <> []) by (intros ->; inversion Ha). assert (HI : (1 <= sa_init c)%nat) by (destruct pop; [congruence|cbn in HC; lia]).
  destruct (newborns_survive (sa_init c) pop s HB ND HM NE HC) as (parents & s1 & HA & HS).
  destruct (ageing_eq (sa_init c) pop s W ND NE HI HM) as (parents' & s1' & fs & low & top & _ & _ & _ & HA' & W1 & HL1 & _ & NDp & Hincl & HLp & _ & _).
  rewrite HA in HA'. injection HA' as <- <-.
  assert (HG : Forall (good E nobody s) pop) by (eapply Forall_impl; [|exact HH]; intros r; apply honest_good).
  assert (HP2 : (2 <= length parents)%nat) by (apply (two_in a b); auto).
  unfold sas_step in HE. cbn [fst] in HE. rewrite (bind_ok _ _ _ _ _ HA) in HE.
  pose proof (safe_ageing E nobody false (sa_init c) pop s (inv_nobody _ W) HG) as HSA. unfold safe in HSA. rewrite HA in HSA. destruct HSA as [G1 (HGp & _)].
  pose proof (safe_offspring E nobody false (crossover false (sa_x c) (Fin (sa_xrate c))) parents s1 (grow_inv _ _ _ _ _ G1) HGp) as HSO.
  assert (HCr : forall x y s', grow E nobody false s1 s' -> In x parents -> In y parents ->
    safe E nobody false (crossover false (sa_x c) (Fin (sa_xrate c)) x y) (fun z s2 => good E nobody s2 z /\ (z = x \/ ~ live s' z)) s').
  { intros x y t G Hx Hy. apply safe_crossover; [apply (grow_inv _ _ _ _ _ G)| |]; (eapply grow_good; [exact G|]); eapply Forall_In; eauto. }
  specialize (HSO HCr). unfold safe in HSO.
  unfold bind at 1 in HE. destruct (offspring (crossover false (sa_x c) (Fin (sa_xrate c))) parents s1) as [[children|e] s2]; [|discriminate].
  destruct HSO as [G2 [HLc HGc]].
  assert (HLive : Forall (live s2) children) by (eapply Forall_impl; [|exact HGc]; intros r [H _]; eapply good_live; eauto).
  destruct (bit_flips_births (Fin (sa_mrate c)) children s2 (proj1 (grow_inv _ _ _ _ _ G2)) HLive) as (ms & s3 & HE3 & M3 & HLm & NDm & HNew & HBo).
  rewrite (bind_ok _ _ _ _ _ HE3) in HE.
  assert (HGc' : Forall (good E nobody s2) children) by (eapply Forall_impl; [|exact HGc]; intros r H; apply H).
  pose proof (safe_mutate_all E nobody false (Fin (sa_mrate c)) children s2 (grow_inv _ _ _ _ _ G2) HGc') as HSM. unfold safe in HSM. rewrite HE3 in HSM.
  destruct HSM as [G3 (_ & HGm & _)].
  assert (HGall : Forall (good E nobody s3) (parents ++ ms)).
  { apply Forall_app. split; auto. eapply grow_goods; [exact G3|]. eapply grow_goods; [exact G2|exact HGp]. }
  pose proof (safe_fit_all E nobody false s3 (parents ++ ms) (grow_inv _ _ _ _ _ G3) HGall) as HSF. unfold safe in HSF.
  unfold bind at 1 in HE. pose proof (fun q y => fit_all_has_ext E (parents ++ ms) s3 q y) as HX.
  destruct (fit_all E (parents ++ ms) s3) as [[p4|e] s4]; [|discriminate]. destruct HSF as [G4 (-> & _ & HHall)].
  inversion HE; subst pop' k' s4; clear HE. cbn [snd] in HX.
  assert (HD2 : (1 <= length parents / 2)%nat) by (apply (Nat.div_le_lower_bound _ 2 1); lia).
  assert (HLu : (2 * (length parents / 2) <= length parents)%nat) by (apply Nat.mul_div_le; lia).
  split; [auto|]. split.
  { clear - NDp NDm HNew HGp G2. assert (HLp : forall r, In r parents -> live s2 r).
    { intros r Hr. rewrite Forall_forall in HGp. eapply good_live. eapply grow_good; [exact G2|apply HGp; auto]. }
    clear HGp. induction parents as [|r ps IH]; [exact NDm|]. apply NoDup_cons_iff in NDp as [H1 H2]. cbn [app]. constructor.
    - rewrite in_app_iff. intros [H|H]; [auto|]. rewrite Forall_forall in HNew. apply (HNew r H). apply HLp. left; auto.
    - apply IH; auto. intros q Hq. apply HLp. right; auto. }
  split; [exact HHall|]. split; [rewrite app_length; lia|].
  destruct ms as [|a' [|b' ms]]; [cbn in HLm; lia|cbn in HLm; lia|].
  exists a', b'. pose proof (Forall_inv HBo) as HBa. pose proof (Forall_inv (Forall_inv_tail HBo)) as HBb. apply NoDup_cons_iff in NDm as [HN1 _].
  split; [apply in_or_app; right; left; auto|]. split; [apply in_or_app; right; right; left; auto|].
  split; [intros ->; apply HN1; left; auto|]. split; apply HX; auto.
Qed.
