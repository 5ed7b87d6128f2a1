(* The shared part of solution composition, for every metaheuristic meeting a contract. *)
From Coq Require Import Lia.
From Verif Require Import PyNum PyList PyMon PyRng L_Num L_List L_Rng M_Matching M_Rule M_Mixing L_Mixing L_MixingProps
  M_Solution S_Solution L_Heap L_HeapProps M_Composition L_Safe L_SafeFit.

(* what every metaheuristic must guarantee: it only touches its population and new objects, and returns measured
   solutions whose genomes fit the pool; Iok: what it relies on about its own attributes *)
Definition contract {K} (O : optimizer K) (Iok : ostate O -> nat -> Prop) : Prop :=
  (forall i m m', Iok i m -> (m <= m')%nat -> Iok i m') /\
  forall L (E : env L) (A : nat -> Prop) ini s pop i,
    inv A s -> Forall (good E A s) pop -> Iok i (length (epool E)) -> epool E <> [] ->
    safe E A false (orun O L E ini pop i)
      (fun r s' => Forall (good E A s') (fst r) /\ Forall (honest E s') (fst r) /\ Iok (snd r) (length (epool E))) s.

(* the same for the data, pool and fitness of one step *)
Definition contract_for {K L} (E : env L) (O : optimizer K) (Iok : ostate O -> nat -> Prop) : Prop :=
  (forall i m m', Iok i m -> (m <= m')%nat -> Iok i m') /\
  forall (A : nat -> Prop) ini s pop i,
    inv A s -> Forall (good E A s) pop -> Iok i (length (epool E)) -> epool E <> [] ->
    safe E A false (orun O L E ini pop i)
      (fun r s' => Forall (good E A s') (fst r) /\ Forall (honest E s') (fst r) /\ Iok (snd r) (length (epool E))) s.
Lemma contract_at {K L} (E : env L) (O : optimizer K) Iok : contract O Iok -> contract_for E O Iok.
Proof. intros [H1 H2]. split; auto. Qed.

(* with a sharper guarantee Jok about the attributes after the call *)
Definition contract_post {K L} (E : env L) (O : optimizer K) (Iok Jok : ostate O -> nat -> Prop) : Prop :=
  (forall i m m', Iok i m -> (m <= m')%nat -> Iok i m') /\
  (forall (A : nat -> Prop) ini s pop i,
    inv A s -> Forall (good E A s) pop -> Iok i (length (epool E)) -> epool E <> [] ->
    safe E A false (orun O L E ini pop i)
      (fun r s' => Forall (good E A s') (fst r) /\ Forall (honest E s') (fst r) /\ Jok (snd r) (length (epool E))) s) /\
  (epool E = [] -> forall i, Iok i 0%nat -> Jok i 0%nat).
Lemma contract_same {K L} (E : env L) (O : optimizer K) Iok : contract_for E O Iok -> contract_post E O Iok Iok.
Proof. intros [H1 H2]. split; auto. Qed.

Section Comp.
Context {K : skind} {L : learner}.
Implicit Types s : hst K.

Definition sized (m : nat) s (r : nat) : Prop := exists bits a x, vw s r = Some (bits, a, x) /\ length bits = m.
Definition upto (m : nat) s (r : nat) : Prop := exists bits a x, vw s r = Some (bits, a, x) /\ (length bits <= m)%nat.
Lemma good_sized (E : env L) A s r : good E A s r <-> ~ A r /\ sized (length (epool E)) s r.
Proof. reflexivity. Qed.
Lemma sized_upto m m' s r : sized m s r -> (m <= m')%nat -> upto m' s r.
Proof. intros (b & a & x & H & HL) Hm. exists b, a, x. split; auto. lia. Qed.
Lemma sized_vw m s s' r : vw s' r = vw s r -> sized m s r -> sized m s' r.
Proof. intros H (b & a & x & HV & HL). exists b, a, x. rewrite H. auto. Qed.
Lemma upto_vw m s s' r : vw s' r = vw s r -> upto m s r -> upto m s' r.
Proof. intros H (b & a & x & HV & HL). exists b, a, x. rewrite H. auto. Qed.
Lemma upto_live m s r : upto m s r -> live s r.
Proof. intros (b & a & x & HV & HL). apply vw_live in HV; auto. Qed.
Lemma sized_live m s r : sized m s r -> live s r.
Proof. intros (b & a & x & HV & HL). apply vw_live in HV; auto. Qed.

(* ----- padding lists of solutions ----- *)
Lemma pad_pop ini m l : forall s, wf s -> (forall r, In r l -> upto m s r) ->
  exists s', mmap (init_pad ini m) l s = (Ok l, s') /\ wf s' /\ length (sols s') = length (sols s) /\
    (forall r, In r l -> sized m s' r) /\ (forall r, ~ In r l -> vw s' r = vw s r).
Proof.
  induction l as [|r l IH]; intros s W HU.
  - exists s. split; [reflexivity|]. split; auto. split; auto. split; [intros r []|auto].
  - destruct (HU r (or_introl eq_refl)) as (bits & a & x & HV & HL).
    destruct (init_pad_vw ini m r s bits a x W HV HL) as (s1 & bits' & HE & W1 & HLen & (extra & Hb & Hm & _) & HV1).
    destruct (IH s1 W1) as (s2 & HE2 & W2 & HLen2 & HS2 & HO2).
    { intros q Hq. destruct (Nat.eq_dec q r) as [->|Hne].
      - exists bits', a, x. rewrite HV1, Nat.eqb_refl. split; auto. lia.
      - apply (upto_vw m s s1 q); [|apply HU; right; auto]. rewrite HV1. destruct (Nat.eqb_spec q r); congruence. }
    exists s2. cbn [mmap]. rewrite (bind_ok _ _ _ _ _ HE), (bind_ok _ _ _ _ _ HE2). split; [reflexivity|].
    split; auto. split; [lia|]. split.
    + intros q [<-|Hq]; auto. destruct (in_dec Nat.eq_dec r l) as [Hin|Hout]; auto.
      exists bits', a, x. rewrite HO2, HV1, Nat.eqb_refl; auto.
    + intros q Hq. rewrite HO2, HV1. { destruct (Nat.eqb_spec q r) as [->|]; auto. exfalso; apply Hq; left; auto. }
      intros Hin; apply Hq; right; auto.
Qed.
Definition padn (m : nat) (bits : list bool) : list bool := bits ++ repeat false (m - length bits).
Lemma padn_length m bits : (length bits <= m)%nat -> length (padn m bits) = m.
Proof. intros H. unfold padn. rewrite app_length, repeat_length. lia. Qed.
Lemma padn_id m bits : length bits = m -> padn m bits = bits.
Proof. intros H. unfold padn. rewrite H, Nat.sub_diag. apply app_nil_r. Qed.
Lemma pad_arch m l : forall s, wf s -> (forall r, In r l -> upto m s r) ->
  exists s', miter (pad_zero m) l s = (Ok tt, s') /\ wf s' /\ length (sols s') = length (sols s) /\ hrng s' = hrng s /\
    (forall r bits a x, In r l -> vw s r = Some (bits, a, x) -> vw s' r = Some (padn m bits, a, x)) /\
    (forall r, ~ In r l -> vw s' r = vw s r).
Proof.
  induction l as [|r l IH]; intros s W HU.
  - exists s. split; [reflexivity|]. split; auto. split; auto. split; auto. split; [intros r b a x []|auto].
  - destruct (HU r (or_introl eq_refl)) as (bits & a & x & HV & HL).
    set (s1 := rebound s r (padn m bits) a x).
    assert (HE : pad_zero m r s = (Ok tt, s1)).
    { unfold pad_zero. rewrite (bind_ok _ _ _ _ _ (genome_eq _ _ _ _ _ HV)).
      destruct (Nat.ltb_spec m (length bits)); [lia|]. apply (set_genome_eq _ _ _ _ _ _ HV). }
    assert (W1 : wf s1) by (apply wf_rebound; auto).
    assert (HV1 : forall i, vw s1 i = if Nat.eqb i r then Some (padn m bits, a, x) else vw s i).
    { intros i. apply vw_rebound; auto. apply vw_live in HV; auto. }
    destruct (IH s1 W1) as (s2 & HE2 & W2 & HLen2 & HR2 & HS2 & HO2).
    { intros q Hq. destruct (Nat.eq_dec q r) as [->|Hne].
      - exists (padn m bits), a, x. rewrite HV1, Nat.eqb_refl. split; auto. rewrite padn_length; lia.
      - apply (upto_vw m s s1 q); [|apply HU; right; auto]. rewrite HV1. destruct (Nat.eqb_spec q r); congruence. }
    exists s2. cbn [miter]. rewrite (bind_ok _ _ _ _ _ HE). split; [exact HE2|].
    split; auto. split; [rewrite HLen2; simpl; apply update_length|]. split; [rewrite HR2; reflexivity|]. split.
    + intros q b a' x' Hq Hv. destruct (Nat.eq_dec q r) as [->|Hne].
      * assert (HV1r : vw s1 r = Some (padn m bits, a, x)) by (rewrite HV1, Nat.eqb_refl; auto).
        rewrite HV in Hv. inversion Hv; subst b a' x'.
        destruct (in_dec Nat.eq_dec r l) as [Hin|Hout]; [|rewrite HO2; auto].
        rewrite (HS2 _ _ _ _ Hin HV1r). rewrite (padn_id m (padn m bits)); auto. apply padn_length; auto.
      * destruct Hq as [Hq|Hq]; [congruence|]. apply HS2; auto. rewrite HV1. destruct (Nat.eqb_spec q r); congruence.
    + intros q Hq. rewrite HO2, HV1. { destruct (Nat.eqb_spec q r) as [->|]; auto. exfalso; apply Hq; left; auto. }
      intros Hin; apply Hq; right; auto.
Qed.

Definition cinv {O : optimizer K} (Iok : ostate O -> nat -> Prop) (m : nat) s (st : comp O) : Prop :=
  wf s /\ Forall (sized m s) (cpop st) /\ Forall (sized m s) (carch st) /\
  (forall r, In r (cpop st) -> ~ In r (carch st)) /\ (length (carch st) <= 1)%nat /\ Iok (cint st) m.

Variable E : env L.
Variable O : optimizer K.
Variables Iok Jok : ostate O -> nat -> Prop.
Hypothesis HO : contract_post E O Iok Jok.
Let n := length (epool E).

(* phase 1: initialise or pad the population *)
Lemma phase_init c m st s : cinv Iok m s st -> (m <= n)%nat ->
  exists pop s', init_population c (osize O (cint st)) n (cpop st) s = (Ok pop, s') /\ wf s' /\
    Forall (sized n s') pop /\ (forall r, In r (carch st) -> vw s' r = vw s r) /\ (forall r, In r pop -> ~ In r (carch st)).
Proof.
  intros (W & HP & HA & HD & _) Hm. unfold init_population. destruct (_ || _).
  - set (A := fun r => In r (carch st)).
    assert (I : inv A s). { split; auto. intros r Hr. rewrite Forall_forall in HA. apply (sized_live m s r). apply HA; exact Hr. }
    pose proof (safe_times E A true (init_call (cinit c) n) (fun r s' => good E A s' r) (osize O (cint st)) s I) as H.
    destruct (times (osize O (cint st)) (init_call (cinit c) n) s) as [[pop|e] s'] eqn:ET.
    + exists pop, s'. unfold safe in H. rewrite ET in H. destruct H as [G [_ HG]].
      { intros y s1 s2 G. apply (grow_good _ _ _ _ _ _ G). }
      { intros s1 G1. eapply safe_post; [apply safe_init_call; apply (grow_inv _ _ _ _ _ G1)|]. cbv beta. intuition. }
      split; auto. split; [apply G|]. split; [revert HG; apply Forall_impl; intros r Hr; apply Hr|].
      split; [apply G|]. rewrite Forall_forall in HG. intros r Hr. apply (HG r Hr).
    + exfalso. clear H HD HP I A. revert e s' s W HA ET. generalize (osize O (cint st)) as k.
      induction k as [|k IH]; intros e s' s W HA ET; [discriminate|]. cbn [times] in ET.
      assert (HI : exists r s1, init_call (cinit c) n s = (Ok r, s1) /\ wf s1 /\ forall q, live s q -> vw s1 q = vw s q).
      { destruct (cinit c) as [|p]; cbn [init_call].
        - eexists _, _. split; [apply new_sol_eq|]. split; [apply wf_push; auto|].
          intros q Hq. rewrite vw_push; auto. unfold live in Hq. destruct (Nat.eqb_spec q (length (sols s))); [lia|auto].
        - destruct (random_bits_eq n p s) as (bits & g & HB & _). rewrite (bind_ok _ _ _ _ _ HB).
          eexists _, _. split; [apply new_sol_eq|]. split; [apply wf_push; auto|].
          intros q Hq. rewrite vw_push; auto. unfold live in Hq. cbn [with_r sols].
          destruct (Nat.eqb_spec q (length (sols s))); [lia|auto]. }
      destruct HI as (r & s1 & HE1 & W1 & HV1). rewrite (bind_ok _ _ _ _ _ HE1) in ET.
      destruct (times k (init_call (cinit c) n) s1) as [[xs|e'] s2] eqn:E2.
      * rewrite (bind_ok _ _ _ _ _ E2) in ET. discriminate.
      * eapply (IH e' s2 s1 W1); [|exact E2]. revert HA. apply Forall_impl. intros q Hq. apply (sized_vw m s s1 q); auto.
        apply HV1. apply (sized_live m); auto.
  - destruct (pad_pop (cinit c) n (cpop st) s W) as (s' & HE & W' & _ & HS & HO').
    { intros r Hr. rewrite Forall_forall in HP. apply (sized_upto m); auto. }
    exists (cpop st), s'. split; auto. split; auto. split; [apply Forall_forall; auto|]. split; auto.
    intros r Hr. apply HO'. intros Hin. apply (HD r Hin Hr).
Qed.

(* phase 2: pad and refit the archive *)
Lemma phase_archive m (arch pop : list nat) s : wf s -> Forall (sized n s) pop -> Forall (sized m s) arch -> (m <= n)%nat ->
  (forall r, In r pop -> ~ In r arch) ->
  let A := fun r => In r pop in
  match (miter (pad_zero n) arch ;; fit_all E arch ;; ret tt) s with
  | (Raise e, _) => ~ bad e
  | (Ok _, s') => wf s' /\ (forall r, In r pop -> vw s' r = vw s r) /\ Forall (sized n s') arch /\ Forall (honest E s') arch /\
      (forall r bits a x, arch = [r] -> vw s r = Some (bits, a, x) ->
         exists a' g g', shows s' r (padn n bits) (Some a') /\
           sol_fit L (emix E) (efit E) (padn n bits) (epool E) (eX E) (ey E) g = (Ok a', g'))
  end.
Proof.
  intros W HP HA Hm HD A.
  destruct (pad_arch n arch s W) as (s1 & HE1 & W1 & HLen1 & _ & HS1 & HO1).
  { intros r Hr. rewrite Forall_forall in HA. apply (sized_upto m); auto. }
  rewrite (bind_ok _ _ _ _ _ HE1).
  assert (I1 : inv A s1).
  { split; auto. intros r Hr. rewrite Forall_forall in HP. unfold live. rewrite HLen1. apply (sized_live n); apply HP; auto. }
  assert (HG1 : Forall (good E A s1) arch).
  { apply Forall_forall. intros r Hr. split; [intros Hin; apply (HD r Hin Hr)|].
    rewrite Forall_forall in HA. destruct (HA r Hr) as (b & a & x & HV & HL). exists (padn n b), a, x.
    rewrite (HS1 _ _ _ _ Hr HV). split; auto. apply padn_length. lia. }
  pose proof (safe_fit_all E A true s1 arch I1 HG1) as HF. unfold safe in HF.
  destruct (fit_all E arch s1) as [[rs|e] s2] eqn:EF.
  - rewrite (bind_ok _ _ _ _ _ EF). cbn [ret]. destruct HF as [G (_ & HGA & HH)].
    split; [apply G|]. split.
    { intros r Hr. rewrite (proj1 (proj2 (proj2 G)) r Hr). apply HO1. apply HD; auto. }
    split; [revert HGA; apply Forall_impl; intros r Hr; apply Hr|]. split; auto.
    intros r bits a x -> HV. assert (HV1 : vw s1 r = Some (padn n bits, a, x)) by (apply HS1; [left|]; auto).
    unfold fit_all in EF. cbn [mmap] in EF.
    pose proof (fit_eq E s1 r _ _ _ W1 HV1) as HFit.
    destruct (sol_fit L (emix E) (efit E) (padn n bits) (epool E) (eX E) (ey E) (hrng s1)) as [[a'|e] g'] eqn:ES.
    + destruct HFit as (s3 & HE3 & _ & _ & _ & HV3). rewrite (bind_ok _ _ _ _ _ HE3) in EF. cbn in EF. inversion EF; subst s3.
      exists a', (hrng s1), g'. split; auto. apply shows_vw. exists x. rewrite HV3, Nat.eqb_refl. auto.
    + rewrite (bind_raise _ _ _ _ _ HFit) in EF. discriminate.
  - rewrite (bind_raise _ _ _ _ _ EF). exact HF.
Qed.

(* phase 4: offer the population to the archive, refit the archive *)
Lemma phase_offer (arch pop : list nat) s : wf s -> Forall (sized n s) pop -> Forall (sized n s) arch ->
  Forall (honest E s) pop -> Forall (honest E s) arch -> (forall r, In r pop -> ~ In r arch) -> (length arch <= 1)%nat ->
  match (let* a := archive_call arch pop in fit_all E a) s with
  | (Raise e, _) => ~ bad e
  | (Ok arch', s') =>
      wf s' /\ Forall (sized n s') pop /\ Forall (sized n s') arch' /\ Forall (honest E s') pop /\ Forall (honest E s') arch' /\
      (forall r, In r pop -> ~ In r arch') /\ (length arch' <= 1)%nat /\
      (deterministic (emix E) -> (forall e k j, is_nan (efit E e k j) = false) ->
       exists a' f', arch' = [a'] /\ has_fit s' a' f' /\
         (forall r f, In r pop -> has_fit s' r f -> nle f f' = true) /\
         (forall r f, In r arch -> has_fit s r f -> nle f f' = true))
  end.
Proof.
  intros W HP HA HHP HHA HD HL1. set (A := fun _ : nat => False).
  assert (I : inv A s) by (split; [auto|intros r []]).
  assert (HGP : Forall (good E A s) pop) by (revert HP; apply Forall_impl; intros r Hr; split; auto).
  assert (HGA : Forall (good E A s) arch) by (revert HA; apply Forall_impl; intros r Hr; split; auto).
  assert (HNaN : (forall e k j, is_nan (efit E e k j) = false) -> forall s0 r f, honest E s0 r -> has_fit s0 r f -> is_nan f = false).
  { intros HN s0 r f (b & a & g & g' & HS & _ & HF) (b2 & a2 & HS2 & ->).
    apply shows_vw in HS as (x & HS). apply shows_vw in HS2 as (x2 & HS2). rewrite HS in HS2. inversion HS2; subst.
    unfold sol_fit in HF. destruct (sol_predict _ _ _ _ _ _ _) as [[p|e] g2]; [|discriminate].
    destruct (_ || _); [discriminate|]. inversion HF; subst. cbn [sfitness]. apply HN. }
  assert (Hfc : forall s0 s1 r f, core s1 r = core s0 r -> has_fit s0 r f -> has_fit s1 r f).
  { intros s0 s1 r f HC (b & a & HS & ->). exists b, a. split; auto. apply core_shows. rewrite HC. apply core_shows. auto. }
  (* archive_call *)
  assert (HAC : safe E A true (archive_call arch pop) (fun arch' s' =>
            Forall (good E A s') arch' /\ Forall (honest E s') arch' /\ (forall r, In r pop -> ~ In r arch') /\ (length arch' <= 1)%nat /\
            ((forall e k j, is_nan (efit E e k j) = false) ->
             exists a' f', arch' = [a'] /\ has_fit s' a' f' /\ (forall r f, In r pop -> has_fit s r f -> nle f f' = true) /\
                (forall r f, In r arch -> has_fit s r f -> nle f f' = true))) s).
  { unfold archive_call. eapply safe_bind; [apply safe_fittest; auto|]. intros best s0 G0 (-> & Hbest & HMax). cbv beta.
    assert (HGb : good E A s best) by (rewrite Forall_forall in HGP; auto).
    assert (HHb : honest E s best) by (rewrite Forall_forall in HHP; auto).
    assert (Hnew : forall (rest : list nat) s', grow E A true s s' -> forall c, good E A s' c -> ~ live s c ->
                 (forall bits a, shows s best bits a -> shows s' c bits a) ->
                 honest E s' c /\ (forall f, has_fit s best f -> has_fit s' c f) /\ (forall r, In r pop -> r <> c)).
    { intros rest s' G c Hc Hnl Hcl. split; [|split].
      - destruct HHb as (b & a & g & g' & HS & H2 & H3). exists b, a, g, g'. split; auto.
      - intros f (b & a & HS & ->). exists b, a. split; auto.
      - intros r Hr ->. apply Hnl. rewrite Forall_forall in HP. apply (sized_live n); auto. }
    destruct arch as [|a rest].
    - eapply safe_bind; [apply safe_clone; auto|]. intros c s' G (Hc & Hnl & Hcl).
      destruct (Hnew [] s' G c Hc Hnl Hcl) as (Hh & Hf & Hne). apply safe_ret; [apply (grow_inv _ _ _ _ _ G)|].
      split; [constructor; [exact Hc|constructor]|]. split; [constructor; [exact Hh|constructor]|].
      split; [intros r Hr [->|[]]; apply (Hne r Hr); auto|]. split; [simpl; lia|].
      intros HN. destruct HMax as (f & Hfb & Hmax).
      { intros q f Hq Hf'. apply (HNaN HN s q f); auto. rewrite Forall_forall in HHP; auto. }
      exists c, f. split; [reflexivity|]. split; [auto|]. split; [intros r f0 Hr Hf0; eapply Hmax; eauto|intros r f0 []].
    - destruct rest as [|? ?]; [|simpl in HL1; lia].
      assert (HGa : good E A s a) by (apply (Forall_inv HGA)).
      assert (HHa : honest E s a) by (apply (Forall_inv HHA)).
      eapply safe_bind; [apply safe_fitness; auto|]. intros fa s0 _ (-> & Hfa). cbv beta.
      eapply safe_bind; [apply safe_fitness; auto|]. intros fb s0 _ (-> & Hfb). cbv beta.
      fold (has_fit s a fa) in Hfa. fold (has_fit s best fb) in Hfb.
      destruct (nlt fa fb) eqn:EL.
      + eapply safe_bind; [apply safe_clone; auto|]. intros c s' G (Hc & Hnl & Hcl).
        destruct (Hnew [] s' G c Hc Hnl Hcl) as (Hh & Hf & Hne). apply safe_ret; [apply (grow_inv _ _ _ _ _ G)|].
        split; [constructor; [exact Hc|constructor]|]. split; [constructor; [exact Hh|constructor]|].
        split; [intros r Hr [->|[]]; apply (Hne r Hr); auto|]. split; [simpl; lia|].
        intros HN. destruct HMax as (f & Hf0 & Hmax).
        { intros q f Hq Hf'. apply (HNaN HN s q f); auto. rewrite Forall_forall in HHP; auto. }
        rewrite (has_fit_fun s best _ _ Hf0 Hfb) in *. exists c, fb. split; [reflexivity|]. split; [auto|].
        split; [intros r f0 Hr Hf1; eapply Hmax; eauto|].
        intros r f0 [<-|[]] Hf1. rewrite (has_fit_fun s _ _ _ Hf1 Hfa). apply nlt_nle; auto.
      + apply safe_ret; auto. split; [exact HGA|]. split; [exact HHA|]. split; [auto|]. split; [auto|].
        intros HN. destruct HMax as (f & Hf0 & Hmax).
        { intros q f Hq Hf'. apply (HNaN HN s q f); auto. rewrite Forall_forall in HHP; auto. }
        rewrite (has_fit_fun s best _ _ Hf0 Hfb) in *.
        assert (Nb : is_nan fb = false) by (apply (HNaN HN s best); auto).
        assert (Na : is_nan fa = false) by (apply (HNaN HN s a); auto).
        exists a, fa. split; [reflexivity|]. split; [auto|]. split.
        * intros r f0 Hr Hf1. eapply nle_trans; [eapply Hmax; eauto|]. apply nlt_false_nle; auto.
        * intros r f0 [<-|[]] Hf1. rewrite (has_fit_fun s _ _ _ Hf1 Hfa). apply nle_refl; auto. }
  unfold safe in HAC. destruct (archive_call arch pop s) as [[arch'|e] s1] eqn:EAC.
  2: { rewrite (bind_raise _ _ _ _ _ EAC). exact HAC. }
  rewrite (bind_ok _ _ _ _ _ EAC). destruct HAC as [G1 (HG1 & HH1 & HD1 & HL1' & HMx)].
  pose proof (safe_fit_all E A true s1 arch' (grow_inv _ _ _ _ _ G1) HG1) as HF. unfold safe in HF.
  destruct (fit_all E arch' s1) as [[rs|e] s2]; [|exact HF]. destruct HF as [G2 (-> & HG2 & HH2)].
  split; [apply G2|].
  split; [apply Forall_forall; intros r Hr; apply (grow_good _ _ _ _ _ r G2), (grow_good _ _ _ _ _ r G1); rewrite Forall_forall in HGP; auto|].
  split; [revert HG2; apply Forall_impl; intros r Hr; apply Hr|].
  split; [apply (grow_honests _ _ _ _ _ G2), (grow_honests _ _ _ _ _ G1); auto|].
  split; auto. split; auto. split; auto.
  intros HDet HN. destruct (HMx HN) as (a' & f' & -> & Hf' & Hpop & Harch). exists a', f'. split; auto.
  destruct G1 as (_ & _ & _ & _ & G1). destruct G2 as (_ & _ & _ & _ & G2). specialize (G1 eq_refl). specialize (G2 eq_refl).
  pose proof (Forall_inv HH1) as Ha1. destruct (G2 a' Ha1) as [_ HC]. split; [apply (Hfc s1); auto|]. split; auto.
  intros r f Hr Hf. eapply Hpop; eauto. rewrite Forall_forall in HHP. destruct (G1 r (HHP r Hr)) as [Hr1 HC1].
  destruct (G2 r Hr1) as [Hr2 HC2]. apply (Hfc s2); auto. rewrite HC2, HC1; auto.
Qed.

(* the whole step *)
Definition keeps_archive (c : ccfg) s (arch : list nat) s' (pop' arch' : list nat) : Prop :=
  deterministic (emix E) -> (forall e k j, is_nan (efit E e k j) = false) -> carchive c = true ->
  exists a' f', arch' = [a'] /\ has_fit s' a' f' /\ (forall r f, In r pop' -> has_fit s' r f -> nle f f' = true) /\
    (forall r bits a x, arch = [r] -> vw s r = Some (bits, a, x) ->
       exists a1 g g', sol_fit L (emix E) (efit E) (padn n bits) (epool E) (eX E) (ey E) g = (Ok a1, g') /\ nle (sfitness a1) f' = true).
Lemma optimize_post c m g st s : cinv Iok m s st -> (m <= n)%nat -> (carchive c = false -> carch st = []) ->
  match optimize O c E g st s with
  | (Raise e, _) => ~ bad e
  | (Ok st', s') => cinv Jok n s' st' /\ Forall (honest E s') (cpop st') /\ Forall (honest E s') (carch st') /\
                    (carchive c = false -> carch st' = []) /\ keeps_archive c s (carch st) s' (cpop st') (carch st')
  end.
Proof.
  intros HC Hm Hca. unfold optimize. rewrite (bind_ok _ _ _ tt (with_r s g)) by reflexivity. fold n.
  assert (HC0 : cinv Iok m (with_r s g) st) by exact HC.
  destruct (phase_init c m st (with_r s g) HC0 Hm) as (pop & s1 & HE1 & W1 & HP1 & HA1 & HD1).
  rewrite (bind_ok _ _ _ _ _ HE1).
  destruct HC as (W & HP & HA & HD & HL1 & HI).
  assert (HAs1 : Forall (sized m s1) (carch st)).
  { apply Forall_forall. intros r Hr. rewrite Forall_forall in HA. apply (sized_vw m s); [apply HA1; auto|auto]. }
  (* archive padding *)
  assert (H2 : match (if carchive c then miter (pad_zero n) (carch st) ;; fit_all E (carch st) ;; ret tt else ret tt) s1 with
               | (Raise e, _) => ~ bad e
               | (Ok _, s') => wf s' /\ (forall r, In r pop -> vw s' r = vw s1 r) /\ Forall (sized n s') (carch st) /\ Forall (honest E s') (carch st) /\
                  (forall r bits a x, carch st = [r] -> vw s1 r = Some (bits, a, x) ->
                     exists a' g g', shows s' r (padn n bits) (Some a') /\
                       sol_fit L (emix E) (efit E) (padn n bits) (epool E) (eX E) (ey E) g = (Ok a', g'))
               end).
  { destruct (carchive c) eqn:EC.
    - exact (phase_archive m (carch st) pop s1 W1 HP1 HAs1 Hm HD1).
    - cbn [ret]. rewrite (Hca eq_refl). split; auto. split; auto. split; [constructor|]. split; [constructor|]. discriminate. }
  match type of H2 with match ?M s1 with _ => _ end => destruct (M s1) as [[u|e] s2] eqn:E2 end.
  2: { rewrite (bind_raise _ _ _ _ _ E2). exact H2. }
  rewrite (bind_ok _ _ _ _ _ E2). destruct H2 as (W2 & HV2 & HA2 & HH2 & HR2). clear E2.
  (* the metaheuristic *)
  set (A := fun r => In r (carch st)).
  assert (I2 : inv A s2). { split; auto. intros r Hr. rewrite Forall_forall in HA2. apply (sized_live n); apply HA2; exact Hr. }
  assert (HG2 : Forall (good E A s2) pop).
  { apply Forall_forall. intros r Hr. split; [apply HD1; auto|]. rewrite Forall_forall in HP1.
    apply (sized_vw n s1); [apply HV2; auto|apply HP1; auto]. }
  assert (HI2 : Iok (cint st) n) by (apply (proj1 HO _ m); auto).
  assert (H3 : forall P, P = epool E -> safe E A false (match P with
       | [] => let* r := init_call (cinit c) n in let* r' := fit E r in ret ([r'], cint st)
       | _ :: _ => orun O L E (cinit c) pop (cint st) end)
      (fun r s' => Forall (good E A s') (fst r) /\ Forall (honest E s') (fst r) /\ Jok (snd r) n) s2).
  { intros [|x l] EP.
    - eapply safe_bind; [apply safe_init_call; auto|]. intros r s' G (Hr & _).
      eapply safe_bind; [apply safe_fit; auto; apply (grow_inv _ _ _ _ _ G)|]. intros r' s'' G' (-> & Hg & Hh).
      apply safe_ret; [apply (grow_inv _ _ _ _ _ G')|]. cbn [fst snd]. split; [constructor; [exact Hg|constructor]|]. split; [constructor; auto|].
      pose proof (proj2 (proj2 HO) (eq_sym EP)) as HJ. unfold n in *. rewrite <- EP in *. apply HJ. exact HI2.
    - apply (proj1 (proj2 HO)); auto. rewrite <- EP; discriminate. }
  specialize (H3 _ eq_refl).
  unfold safe in H3.
  match type of H3 with match ?M s2 with _ => _ end => destruct (M s2) as [[[pop' i']|e] s3] eqn:E3 end.
  2: { rewrite (bind_raise _ _ _ _ _ E3). exact H3. }
  rewrite (bind_ok _ _ _ _ _ E3). clear E3. cbn [fst snd] in H3. destruct H3 as [G3 (HG3 & HH3 & HI3)].
  assert (HA3 : Forall (sized n s3) (carch st)).
  { apply Forall_forall. intros r Hr. rewrite Forall_forall in HA2. apply (sized_vw n s2); [apply G3; exact Hr|auto]. }
  assert (HHA3 : Forall (honest E s3) (carch st)).
  { apply Forall_forall. intros r Hr. rewrite Forall_forall in HH2. apply (honest_core E s2); [|auto].
    apply vw_core. apply G3; exact Hr. }
  assert (HP3 : Forall (sized n s3) pop') by (revert HG3; apply Forall_impl; intros r Hr; apply Hr).
  assert (HD3 : forall r, In r pop' -> ~ In r (carch st)).
  { intros r Hr. rewrite Forall_forall in HG3. apply (HG3 r Hr). }
  destruct (carchive c) eqn:EC.
  - pose proof (phase_offer (carch st) pop' s3 (proj1 (grow_inv _ _ _ _ _ G3)) HP3 HA3 HH3 HHA3 HD3 HL1) as H4.
    match type of H4 with match ?M s3 with _ => _ end => destruct (M s3) as [[arch'|e] s4] eqn:E4 end.
    2: { rewrite (bind_raise _ _ _ _ _ E4). exact H4. }
    rewrite (bind_ok _ _ _ _ _ E4). cbn [ret]. destruct H4 as (W4 & HP4 & HA4 & HHP4 & HHA4 & HD4 & HL4 & HK4).
    split; [split; [auto|split; [auto|split; [auto|split; [auto|split; auto]]]]|]. cbn [cpop carch cint].
    split; auto. split; auto. split; [discriminate|]. intros HDet HN _.
    destruct (HK4 HDet HN) as (a' & f' & -> & Hf' & Hpop & Harch). exists a', f'. split; auto. split; auto. split; auto.
    intros r bits a x Ha HV. assert (HV1 : vw s1 r = Some (bits, a, x)).
    { rewrite HA1; [exact HV|rewrite Ha; left; auto]. }
    destruct (HR2 r bits a x Ha HV1) as (a1 & g1 & g1' & HS & HF). exists a1, g1, g1'. split; auto.
    apply (Harch r); [rewrite Ha; left; auto|]. exists (padn n bits), a1. split; auto.
    apply core_shows. rewrite (vw_core s2 s3); [apply core_shows; exact HS|]. apply G3. unfold A. rewrite Ha; left; auto.
  - cbn [ret]. rewrite (bind_ok _ _ _ [] s3) by reflexivity. cbn [ret].
    split; [split; [apply G3|split; [auto|split; [constructor|split; [intros r _ []|split; [simpl; lia|auto]]]]]|].
    cbn [cpop carch]. split; auto. split; auto. split; auto. intros _ _ H; congruence.
Qed.
End Comp.

Lemma optimize_step {K L} (E : env L) (O : optimizer K) Iok : contract_for E O Iok ->
  forall c m g (st : comp O) (s : hst K), cinv Iok m s st -> (m <= length (epool E))%nat -> (carchive c = false -> carch st = []) ->
  match optimize O c E g st s with
  | (Raise e, _) => ~ bad e
  | (Ok st', s') => cinv Iok (length (epool E)) s' st' /\ Forall (honest E s') (cpop st') /\ Forall (honest E s') (carch st') /\
                    (carchive c = false -> carch st' = []) /\ keeps_archive E c s (carch st) s' (cpop st') (carch st')
  end.
Proof. intros H. exact (optimize_post E O Iok Iok (contract_same _ _ _ H)). Qed.
