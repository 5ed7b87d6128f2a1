(* Whole learning runs: induction over the composition steps. *)
From Coq Require Import Lia.
From Verif Require Import PyNum PyList PyMon PyRng L_Num L_List L_Rng M_Matching M_Rule M_Mixing L_Mixing L_MixingProps
  M_Solution S_Solution L_Heap L_HeapProps M_Composition S_Composition L_Safe L_SafeFit L_Composition.

Section History.
Context {K : skind} {L : learner}.
Variable O : optimizer K.
Variable Iok : ostate O -> nat -> Prop.
Hypothesis HO : contract O Iok.
Variable c : ccfg.
Implicit Types s : hst K.

Lemma compose_app (a b : list (env L * rng)) st s :
  compose O c (a ++ b) st s = (let* st' := compose O c a st in compose O c b st') s.
Proof.
  revert st s. induction a as [|[E g] a IH]; intros st s; [reflexivity|]. cbn [compose app].
  unfold bind at 1 2 3. destruct (optimize O c E g st s) as [[st1|e] s1]; [|reflexivity]. rewrite IH. reflexivity.
Qed.
Fixpoint growing (m : nat) (steps : list (env L * rng)) : Prop :=
  match steps with [] => True | (E, _) :: rest => (m <= length (epool E))%nat /\ growing (length (epool E)) rest end.
Lemma one_fit_growing steps : forall m, one_fit steps ->
  match steps with (E, _) :: _ => (m <= length (epool E))%nat | [] => True end -> growing m steps.
Proof.
  induction steps as [|[E g] steps IH]; intros m H H1; [exact I|]. cbn [growing]. split; auto. destruct H as [H H'].
  apply IH; auto. destruct steps as [|[E2 g2] steps]; auto. destruct H as [(new & ->) _]. rewrite app_length; lia.
Qed.
Lemma one_fit_app a b : one_fit (a ++ b) -> one_fit (L := L) a /\ one_fit b.
Proof.
  induction a as [|[E g] a IH]; cbn [app one_fit]; [auto|]. intros [H H']. destruct (IH H') as [Ha Hb]. split; auto. split; auto.
  destruct a as [|[E2 g2] a]; auto.
Qed.

Lemma compose_inv steps : forall m st s, cinv Iok m s st -> growing m steps -> (carchive c = false -> carch st = []) ->
  match compose O c steps st s with
  | (Raise e, _) => ~ bad e
  | (Ok st', s') => exists m', cinv Iok m' s' st' /\ (carchive c = false -> carch st' = [])
  end.
Proof.
  induction steps as [|[E g] steps IH]; intros m st s HC HG HA.
  - cbn. exists m. auto.
  - cbn [compose]. destruct HG as [Hm HG]. pose proof (optimize_step E O Iok (contract_at E O Iok HO) c m g st s HC Hm HA) as HS.
    destruct (optimize O c E g st s) as [[st1|e] s1] eqn:EO.
    + rewrite (bind_ok _ _ _ _ _ EO). destruct HS as (HC1 & _ & _ & HA1 & _). exact (IH _ st1 s1 HC1 HG HA1).
    + rewrite (bind_raise _ _ _ _ _ EO). exact HS.
Qed.
(* with a contract for the given steps only *)
Lemma compose_for (Jok : ostate O -> nat -> Prop) steps : Forall (fun z => contract_for (fst z) O Jok) steps ->
  forall m st s, cinv Jok m s st -> growing m steps -> (carchive c = false -> carch st = []) ->
  match compose O c steps st s with
  | (Raise e, _) => ~ bad e
  | (Ok st', s') => cinv Jok (last (map (fun z => length (epool (fst z))) steps) m) s' st' /\ (carchive c = false -> carch st' = [])
  end.
Proof.
  induction 1 as [|[E g] steps HO' _ IH]; intros m st s HC HG HA.
  - cbn. auto.
  - cbn [compose]. destruct HG as [Hm HG]. pose proof (optimize_step E O Jok HO' c m g st s HC Hm HA) as HS.
    destruct (optimize O c E g st s) as [[st1|e] s1] eqn:EO.
    + rewrite (bind_ok _ _ _ _ _ EO). destruct HS as (HC1 & _ & _ & HA1 & _). pose proof (IH _ st1 s1 HC1 HG HA1) as H.
      destruct (compose O c steps st1 s1) as [[st'|e] s']; auto. destruct H as [H1 H2]. split; auto.
      cbn [map fst]. destruct steps as [|z steps]; [exact H1|]. cbn [map] in *. 
      replace (last _ m) with (last (length (epool (fst z)) :: map (fun z => length (epool (fst z))) steps) (length (epool E))); [exact H1|].
      clear. cbn [last]. revert z. induction steps as [|y steps IH]; intros z; [reflexivity|]. cbn [map]. apply (IH y).
    + rewrite (bind_raise _ _ _ _ _ EO). exact HS.
Qed.
(* the state after the last step *)
Lemma growing_app a b : forall m, growing m (a ++ b) -> growing m a /\ growing (last (map (fun z => length (epool (fst z))) a) m) b.
Proof.
  induction a as [|[E g] a IH]; intros m H; cbn [app growing] in *; [cbn; auto|]. destruct H as [H1 H2]. destruct (IH _ H2) as [H3 H4].
  split; auto. cbn [map fst]. destruct a as [|z a]; [exact H4|]. cbn [map] in *.
  replace (last _ m) with (last (length (epool (fst z)) :: map (fun z => length (epool (fst z))) a) (length (epool E))); [exact H4|].
  clear. cbn [last]. revert z. induction a as [|y a IH]; intros z; [reflexivity|]. cbn [map]. apply (IH y).
Qed.
Lemma compose_last_post (Ipre Jok : ostate O -> nat -> Prop) steps E g m st s st' s' : Forall (fun z => contract_for (fst z) O Ipre) steps ->
  contract_post E O Ipre Jok -> cinv Ipre m s st -> growing m (steps ++ [(E, g)]) -> (carchive c = false -> carch st = []) ->
  compose O c (steps ++ [(E, g)]) st s = (Ok st', s') -> Jok (cint st') (length (epool E)).
Proof.
  intros HS HE HC HG HA HX. apply growing_app in HG as [HG1 HG2]. rewrite compose_app in HX.
  pose proof (compose_for Ipre steps HS m st s HC HG1 HA) as H1. destruct (compose O c steps st s) as [[st1|e] s1] eqn:E1.
  - rewrite (bind_ok _ _ _ _ _ E1) in HX. destruct H1 as [HC1 HA1]. cbn [compose] in HX. destruct HG2 as [HG2 _].
    pose proof (optimize_post E O Ipre Jok HE c _ g st1 s1 HC1 HG2 HA1) as H2. destruct (optimize O c E g st1 s1) as [[st2|e] s2] eqn:E2.
    + rewrite (bind_ok _ _ _ _ _ E2) in HX. injection HX as <- <-. destruct H2 as ((_ & _ & _ & _ & _ & HJ) & _). exact HJ.
    + rewrite (bind_raise _ _ _ _ _ E2) in HX. discriminate.
  - rewrite (bind_raise _ _ _ _ _ E1) in HX. discriminate.
Qed.

Definition after (E : env L) st s : Prop :=
  cinv Iok (length (epool E)) s st /\ Forall (honest E s) (cpop st) /\ Forall (honest E s) (carch st) /\ (carchive c = false -> carch st = []).
Lemma compose_last steps E g m st s : cinv Iok m s st -> growing m (steps ++ [(E, g)]) -> (carchive c = false -> carch st = []) ->
  match compose O c (steps ++ [(E, g)]) st s with
  | (Raise e, _) => ~ bad e
  | (Ok st', s') => after E st' s'
  end.
Proof.
  revert m st s. induction steps as [|[E0 g0] steps IH]; intros m st s HC HG HA; cbn [app compose]; destruct HG as [Hm HG].
  - pose proof (optimize_step E O Iok (contract_at E O Iok HO) c m g st s HC Hm HA) as HS. destruct (optimize O c E g st s) as [[st1|e] s1] eqn:EO.
    + rewrite (bind_ok _ _ _ _ _ EO). cbn. destruct HS as (H1 & H2 & H3 & H4 & _). split; [auto|split; [auto|split; auto]].
    + rewrite (bind_raise _ _ _ _ _ EO). exact HS.
  - pose proof (optimize_step E0 O Iok (contract_at E0 O Iok HO) c m g0 st s HC Hm HA) as HS.
    destruct (optimize O c E0 g0 st s) as [[st1|e] s1] eqn:EO.
    + rewrite (bind_ok _ _ _ _ _ EO). destruct HS as (HC1 & _ & _ & HA1 & _). exact (IH _ st1 s1 HC1 HG HA1).
    + rewrite (bind_raise _ _ _ _ _ EO). exact HS.
Qed.
Lemma fresh_cinv i g m : Iok i m -> cinv Iok m (mkH [] [] g : hst K) (fresh_comp O i).
Proof.
  intros HI. split; [apply wf_empty|]. split; [constructor|]. split; [constructor|]. split; [intros r []|]. split; [simpl; lia|exact HI].
Qed.

Lemma history_fits steps E g i g0 : Iok i 0 -> one_fit (steps ++ [(E, g)]) ->
  match compose O c (steps ++ [(E, g)]) (fresh_comp O i) (mkH [] [] g0) with
  | (Raise e, _) => ~ bad e
  | (Ok st', s') => after E st' s'
  end.
Proof.
  intros HI HF. apply (compose_last steps E g 0); [apply fresh_cinv; auto| |reflexivity].
  apply one_fit_growing; auto. destruct (steps ++ [(E, g)]) as [|[? ?] ?]; auto. lia.
Qed.

Lemma after_fits E st s : never_nan E -> after E st s ->
  Forall (fun r => exists f, has_fit s r f /\ is_nan f = false) (cpop st ++ carch st).
Proof.
  intros HN (_ & HHP & HHA & _). apply Forall_app. split; [revert HHP|revert HHA]; apply Forall_impl; intros r; apply honest_fits; exact HN.
Qed.
Lemma after_elitist E st s : never_nan E -> after E st s -> cpop st <> [] ->
  exists r f, elitist st s = (Ok (Some r), s) /\ best_of s (cpop st ++ carch st) r f.
Proof.
  intros HN HA HE. destruct (fittest_best s (cpop st ++ carch st)) as (r & f & H1 & H2 & H3 & H4).
  - destruct (cpop st); [congruence|discriminate].
  - apply (after_fits E); auto.
  - exists r, f. split; [|split; auto]. unfold elitist. destruct (cpop st) as [|x l]; [congruence|].
    rewrite (bind_ok _ _ _ _ _ H1). reflexivity.
Qed.
(* the archive holds a best solution *)
Definition champion (st : comp O) s (f : num) : Prop :=
  exists a, carch st = [a] /\ has_fit s a f /\ forall r f', In r (cpop st) -> has_fit s r f' -> nle f' f = true.
Lemma champion_is_best st s r f f0 : champion st s f0 -> In r (cpop st ++ carch st) -> has_fit s r f -> is_nan f0 = false -> nle f f0 = true.
Proof.
  intros (a & Ha & Hf & Hmax) Hr Hfr HN. apply in_app_or in Hr. destruct Hr as [Hr|Hr]; [eapply Hmax; eauto|].
  rewrite Ha in Hr. destruct Hr as [<-|[]]. rewrite (has_fit_fun _ _ _ _ Hfr Hf). apply nle_refl; auto.
Qed.
Lemma step_champion E1 E2 g st s st' s' : carchive c = true -> deterministic (emix E1) -> never_nan E1 -> size_free E1 ->
  extends E1 E2 -> after E1 st s -> optimize O c E2 g st s = (Ok st', s') ->
  after E2 st' s' /\ exists f', champion st' s' f' /\ forall f, champion st s f -> nle f f' = true.
Proof.
  intros HC HD HN HSz HX (HI & HHP & HHA & Hca) HE. destruct HX as ((new & HP) & HX & HY & HM & HFt).
  assert (Hm : (length (epool E1) <= length (epool E2))%nat) by (rewrite HP, app_length; lia).
  pose proof (optimize_step E2 O Iok (contract_at E2 O Iok HO) c _ g st s HI Hm Hca) as H. rewrite HE in H.
  destruct H as (H1 & H2 & H3 & H4 & H5). split; [split; [auto|split; [auto|split; auto]]|].
  unfold keeps_archive in H5. rewrite HM, HFt in H5. destruct (H5 HD HN HC) as (a' & f' & Ha' & Hf' & Hpop & Hold).
  exists f'. split; [exists a'; auto|]. intros f (a & Ha & Hf & _). rewrite Ha in HHA. pose proof (Forall_inv HHA) as (bits & at_ & g1 & g1' & HS & HL & HF).
  assert (Hf0 : f = sfitness at_) by (apply (has_fit_fun s a); auto; exists bits, at_; auto). subst f.
  apply shows_vw in HS as (x & HS).
  destruct (Hold a bits (Some at_) x Ha HS) as (a1 & g2 & g2' & HF2 & Hle).
  enough (sfitness a1 = sfitness at_) as <- by exact Hle.
  assert (Hpad : padn (length (epool E2)) bits = bits ++ repeat false (length new)).
  { unfold padn. rewrite HP, app_length, HL. do 2 f_equal. lia. }
  rewrite Hpad, ?HM, ?HFt, HX, HY, HP in HF2.
  pose proof (sol_fit_det L (emix E1) (efit E1) bits (epool E1) (eX E1) (ey E1) g1 g2 HD) as HDet. rewrite HF in HDet.
  unfold sol_fit in HF2, HDet. rewrite (padding_irrelevant L (emix E1) bits (epool E1) new (eX E1) true g2 HL) in HF2.
  destruct (sol_predict L (emix E1) bits (epool E1) (eX E1) true g2) as [[p|e] g3]; [|discriminate].
  destruct (_ || _); [discriminate|]. cbn [fst] in HDet. inversion HDet; subst at_. inversion HF2; subst a1. cbn [sfitness].
  rewrite count_true_app, count_true_repeat_false, Nat.add_0_r. apply HSz.
Qed.
Lemma run_champion E1 : carchive c = true -> deterministic (emix E1) -> never_nan E1 -> size_free E1 ->
  forall more E0 g0 st s st' s', extends E1 E0 -> one_fit ((E0, g0) :: more) -> after E0 st s -> 
  compose O c more st s = (Ok st', s') ->
  exists E', extends E1 E' /\ after E' st' s' /\ (more = [] /\ st' = st /\ s' = s \/ exists f', champion st' s' f' /\ forall f, champion st s f -> nle f f' = true).
Proof.
  intros HC HD HN HSz. induction more as [|[E2 g2] more IH]; intros E0 g0 st s st' s' HX HF HA HE.
  - inversion HE; subst. exists E0. split; [auto|]. split; [auto|]. left. auto.
  - destruct HF as [HF HF']. cbn [compose] in HE.
    destruct (optimize O c E2 g2 st s) as [[st1|e] s1] eqn:EO; [|rewrite (bind_raise _ _ _ _ _ EO) in HE; discriminate].
    rewrite (bind_ok _ _ _ _ _ EO) in HE.
    assert (HX2 : extends E1 E2).
    { destruct HX as ((n1 & P1) & X1 & Y1 & M1 & F1), HF as ((n2 & P2) & X2 & Y2 & M2 & F2).
      split; [exists (n1 ++ n2); rewrite P2, P1, app_assoc; auto|]. repeat split; congruence. }
    assert (HD0 : deterministic (emix E0) /\ never_nan E0 /\ size_free E0).
    { destruct HX as (_ & _ & _ & M1 & F1). unfold never_nan, size_free. rewrite M1, F1. auto. }
    destruct HD0 as (D0 & N0 & S0).
    destruct (step_champion E0 E2 g2 st s st1 s1 HC D0 N0 S0 HF HA EO) as (HA1 & f1 & HC1 & HB1).
    destruct (IH E2 g2 st1 s1 st' s' HX2 HF' HA1 HE) as (E' & HX' & HA' & [(-> & -> & ->)|(f' & HC' & HB')]).
    + exists E'. split; auto. split; auto. right. exists f1. auto.
    + exists E'. split; auto. split; auto. right. exists f'. split; auto. intros f Hf. eapply nle_trans; [apply HB1; auto|apply HB'; auto].
Qed.
Lemma never_worse (steps : list (env L * rng)) E1 g1 more i g0 st1 s1 st2 s2 r1 r2 f1 f2 :
  Iok i 0 -> carchive c = true -> deterministic (emix E1) -> never_nan E1 -> size_free E1 ->
  one_fit (steps ++ [(E1, g1)] ++ more) ->
  compose O c (steps ++ [(E1, g1)]) (fresh_comp O i) (mkH [] [] g0) = (Ok st1, s1) ->
  compose O c (steps ++ [(E1, g1)] ++ more) (fresh_comp O i) (mkH [] [] g0) = (Ok st2, s2) ->
  elitist st1 s1 = (Ok (Some r1), s1) -> elitist st2 s2 = (Ok (Some r2), s2) -> has_fit s1 r1 f1 -> has_fit s2 r2 f2 -> nle f1 f2 = true.
Proof.
  intros HI HC HD HN HSz HF H1 H2 HE1 HE2 Hf1 Hf2. rewrite app_assoc in H2, HF. rewrite compose_app, (bind_ok _ _ _ _ _ H1) in H2.
  destruct (one_fit_app _ _ HF) as [HFa _]. rewrite <- app_assoc in HF. destruct (one_fit_app _ _ HF) as [_ HFb]. cbn [app] in HFb.
  pose proof (history_fits steps E1 g1 i g0 HI HFa) as HA1. rewrite H1 in HA1.
  assert (HX : extends E1 E1) by (split; [exists []; rewrite app_nil_r|]; auto).
  destruct (run_champion E1 HC HD HN HSz more E1 g1 st1 s1 st2 s2 HX HFb HA1 H2) as (E' & HX' & HA2 & HR).
  assert (HN' : never_nan E') by (destruct HX' as (_ & _ & _ & _ & F); unfold never_nan; rewrite F; auto).
  assert (Hel : forall E st s r f, never_nan E -> after E st s -> elitist st s = (Ok (Some r), s) -> has_fit s r f -> best_of s (cpop st ++ carch st) r f).
  { intros E st s r f HNE HA HEl Hf. assert (Hne : cpop st <> []) by (unfold elitist in HEl; destruct (cpop st); discriminate).
    destruct (after_elitist E st s HNE HA Hne) as (r' & f' & H & HB). rewrite HEl in H. inversion H; subst r'.
    destruct HB as (Hb1 & Hb2 & Hb3). rewrite (has_fit_fun _ _ _ _ Hf Hb2). split; auto. }
  pose proof (Hel E1 st1 s1 r1 f1 HN HA1 HE1 Hf1) as HB1. pose proof (Hel E' st2 s2 r2 f2 HN' HA2 HE2 Hf2) as HB2.
  destruct HR as [(-> & -> & ->)|(f' & HC' & HB')].
  - rewrite HE1 in HE2. inversion HE2; subst r2. rewrite (has_fit_fun _ _ _ _ Hf1 Hf2). 
    destruct HB2 as (_ & _ & HB2). apply (HB2 r1); auto. apply HB1.
  - (* the champion of step 1 *)
    assert (Hc1 : exists f0, champion st1 s1 f0 /\ is_nan f0 = false).
    { clear - HI HC HD HN HSz HFa H1 HA1 HO. destruct steps as [|[E0 gg0] steps'] eqn:ES.
      - cbn [app compose] in H1. destruct (optimize O c E1 g1 (fresh_comp O i) (mkH [] [] g0)) as [[st|e] s] eqn:EO;
          [|rewrite (bind_raise _ _ _ _ _ EO) in H1; discriminate].
        rewrite (bind_ok _ _ _ _ _ EO) in H1. inversion H1; subst st1 s1.
        pose proof (optimize_step E1 O Iok (contract_at E1 O Iok HO) c 0 g1 (fresh_comp O i) (mkH [] [] g0) (fresh_cinv i g0 0 HI) (Nat.le_0_l _) (fun _ => eq_refl)) as H.
        rewrite EO in H. destruct H as (_ & _ & H3 & _ & H5). destruct (H5 HD HN HC) as (a' & f' & Ha' & Hf' & Hpop & _).
        exists f'. split; [exists a'; auto|]. rewrite Ha' in H3. destruct (honest_fits E1 s a' HN (Forall_inv H3)) as (f & Hf & Hn).
        rewrite (has_fit_fun _ _ _ _ Hf' Hf). exact Hn.
      - rewrite <- ES in *. clear ES E0 gg0 steps'. rewrite compose_app in H1.
        destruct (compose O c steps (fresh_comp O i) (mkH [] [] g0)) as [[st|e] s] eqn:EC;
          [|rewrite (bind_raise _ _ _ _ _ EC) in H1; discriminate].
        rewrite (bind_ok _ _ _ _ _ EC) in H1. cbn [compose] in H1.
        destruct (optimize O c E1 g1 st s) as [[st'|e] s'] eqn:EO; [|rewrite (bind_raise _ _ _ _ _ EO) in H1; discriminate].
        rewrite (bind_ok _ _ _ _ _ EO) in H1. inversion H1; subst st' s'.
        assert (HG : growing 0 (steps ++ [(E1, g1)])).
        { apply one_fit_growing; auto. destruct (steps ++ [(E1, g1)]) as [|[? ?] ?]; auto. lia. }
        assert (HCi : exists m, cinv Iok m s st /\ (carchive c = false -> carch st = []) /\ (m <= length (epool E1))%nat).
        { clear - HG EC HO HI. revert HG EC. generalize (fresh_cinv i g0 0 HI). 
          assert (Hca : carchive c = false -> carch (fresh_comp O i) = []) by reflexivity. revert Hca.
          generalize (mkH [] [] g0 : hst K), (fresh_comp O i), 0%nat. induction steps as [|[E0 gg] steps IH]; intros s0 st0 m Hca HCi HG EC.
          - inversion EC; subst. exists m. split; auto. split; auto. destruct HG as [H _]. exact H.
          - destruct HG as [Hm HG]. cbn [compose] in EC. pose proof (optimize_step E0 O Iok (contract_at E0 O Iok HO) c m gg st0 s0 HCi Hm Hca) as H.
            destruct (optimize O c E0 gg st0 s0) as [[st'|e] s'] eqn:EO; [|rewrite (bind_raise _ _ _ _ _ EO) in EC; discriminate].
            rewrite (bind_ok _ _ _ _ _ EO) in EC. destruct H as (H1 & _ & _ & H4 & _). exact (IH s' st' _ H4 H1 HG EC). }
        destruct HCi as (m & HCi & Hca & Hm). pose proof (optimize_step E1 O Iok (contract_at E1 O Iok HO) c m g1 st s HCi Hm Hca) as H. rewrite EO in H.
        destruct H as (_ & _ & H3 & _ & H5). destruct (H5 HD HN HC) as (a' & f' & Ha' & Hf' & Hpop & _).
        exists f'. split; [exists a'; auto|]. rewrite Ha' in H3. destruct (honest_fits E1 s1 a' HN (Forall_inv H3)) as (f & Hf & Hn).
        rewrite (has_fit_fun _ _ _ _ Hf' Hf). exact Hn. }
    destruct Hc1 as (f0 & Hc0 & Hn0). destruct HB1 as (Hb1 & _ & _). destruct HB2 as (_ & _ & Hb2).
    eapply nle_trans; [apply (champion_is_best st1 s1 r1 f1 f0 Hc0 Hb1 Hf1 Hn0)|].
    eapply nle_trans; [apply (HB' f0 Hc0)|]. destruct HC' as (a & Ha & Hfa & _). apply (Hb2 a); auto.
    apply in_or_app. right. rewrite Ha. left; auto.
Qed.
End History.
