(* Properties of the genome operators (C24, C25, C26). *)
From Coq Require Import Lia Permutation.
From Verif Require Import PyNum PyList PyMon PyRng PyStat L_Num L_List L_Rng M_Matching M_Rule L_RuleProps M_Mixing L_Mixing L_MixingProps M_Solution S_Solution
  L_Heap L_HeapProps M_Composition L_Safe L_SafeFit M_GenomeOps S_GenomeOps L_GenomeOps L_Ranks.

(* ----- C24 ----- *)
Lemma more_shows {K} (s s' : hst K) r b a : more s s' -> shows s r b a -> shows s' r b a.
Proof. intros M HS. apply shows_vw in HS as (x & HS). apply shows_vw. exists x. eapply more_vw; eauto. Qed.

Lemma crossover_positionwise {K} both x rate (s : hst K) a b ba aa bb ab :
  built s -> shows s a ba aa -> shows s b bb ab -> length ba = length bb ->
  exists c s' bits ac, crossover both x rate a b s = (Ok c, s') /\ shows s' c bits ac /\ recombined ba bb bits /\
    (c = a \/ ~ live s c) /\ forall r bits0 a0, shows s r bits0 a0 -> shows s' r bits0 a0.
Proof.
  intros HB Ha Hb HL. apply built_wf in HB. apply shows_vw in Ha as (xa & Ha). apply shows_vw in Hb as (xb & Hb).
  destruct (crossover_eq both x rate s a b _ _ _ _ _ _ HB Ha Hb HL) as (c & s' & bits & ac & xc & HE & M & Hc & HR & _ & HD & _).
  exists c, s', bits, ac. split; [exact HE|]. split; [apply shows_vw; eauto|]. split; [auto|]. split; [auto|].
  intros r b0 a0. apply more_shows; auto.
Qed.
Lemma npoint_single_cut {K} both k (s : hst K) a b ba aa bb ab :
  built s -> shows s a ba aa -> shows s b bb ab -> length ba = length bb ->
  exists c s' cuts ac, recombine both (NPoint k) a b s = (Ok c, s') /\ length cuts = Nat.min k (length ba) /\ NoDup cuts /\
    Forall (fun i => i < length ba)%nat cuts /\ shows s' c (cut_at (fold_right Nat.min (length ba) cuts) ba bb) ac.
Proof.
  intros HB Ha Hb HL. apply built_wf in HB. apply shows_vw in Ha as (xa & Ha). apply shows_vw in Hb as (xb & Hb).
  destruct (recombine_eq both (NPoint k) s a b _ _ _ _ _ _ HB Ha Hb HL) as (c & s' & bits & ac & xc & HE & M & Hc & HR & _ & HD & cuts & H1 & H2 & H3 & H4).
  exists c, s', cuts, ac. split; [exact HE|]. split; [auto|]. split; [auto|]. split; [auto|]. apply shows_vw. exists xc. rewrite Hc, H4. reflexivity.
Qed.

(* a generator whose next draws are given *)
Definition scripted (qs : list Q) : rng := mkRng (fun i => nth i qs 0) 0.
Lemma draws_tape_eq t : forall n p, fst (draws n (mkRng t p)) = map (fun i => t (p + i)%nat) (seq 0 n).
Proof.
  induction n as [|n IH]; intros p; [reflexivity|]. cbn [draws draw tape pos].
  specialize (IH (S p)). destruct (draws n (mkRng t (S p))) as [qs g2]. cbn [fst] in *. rewrite IH.
  cbn [seq map]. rewrite Nat.add_0_r. f_equal. rewrite <- seq_shift, map_map. apply map_ext. intros i. f_equal. lia.
Qed.
Lemma map_nth_seq {A} (l : list A) d : map (fun i => nth i l d) (seq 0 (length l)) = l.
Proof.
  apply nth_error_ext. intros i. rewrite nth_error_map. destruct (Nat.lt_ge_cases i (length l)) as [H|H].
  - rewrite (nth_error_nth' _ 0%nat) by (rewrite seq_length; auto). rewrite seq_nth by auto. cbn. symmetry. apply nth_error_nth'; auto.
  - assert (H1 : nth_error (seq 0 (length l)) i = None) by (apply nth_error_None; rewrite seq_length; auto).
    rewrite H1. symmetry. apply nth_error_None; auto.
Qed.
Lemma draws_scripted qs : fst (draws (length qs) (scripted qs)) = qs.
Proof. unfold scripted. rewrite draws_tape_eq. cbn. apply map_nth_seq. Qed.
Lemma randoms_scripted qs : fst (randoms (length qs) (scripted qs)) = map u01 qs.
Proof. unfold randoms. pose proof (draws_scripted qs) as H. destruct (draws (length qs) (scripted qs)). cbn in *. congruence. Qed.

Lemma mix_bits_onto a b c : recombined a b c -> length b = length a ->
  let us := map2 (fun x y => if Bool.eqb x y then 0 else 3 # 4) a c in mix_bits (map u01 us) a b = c.
Proof.
  revert b c. induction a as [|x a IH]; intros [|y b] [|z c] [HL H] HL2; simpl in HL, HL2; try lia; auto.
  cbn [map2 map]. unfold mix_bits. cbn [combine map2]. f_equal.
  - cbn [fst snd]. destruct (H 0%nat z eq_refl) as [H0|H0]; cbn in H0; injection H0 as ->; destruct z; try destruct x; reflexivity.
  - apply IH; [|lia]. split; [lia|]. intros i w Hi. apply (H (S i) w Hi).
Qed.
Lemma uniform_onto {K} both (s : hst K) a b ba aa bb ab bits :
  built s -> shows s a ba aa -> shows s b bb ab -> length ba = length bb -> recombined ba bb bits ->
  exists g c s' ac, recombine both Uniform a b (mkH (garr s) (sols s) g) = (Ok c, s') /\ shows s' c bits ac.
Proof.
  intros HB Ha Hb HL HR. apply built_wf in HB. apply shows_vw in Ha as (xa & Ha). apply shows_vw in Hb as (xb & Hb).
  set (us := map2 (fun x y => if Bool.eqb x y then 0 else 3 # 4) ba bits).
  assert (HLu : length us = length ba). { unfold us. rewrite map2_length; auto. symmetry; apply HR. }
  exists (scripted us). set (s1 := mkH (garr s) (sols s) (scripted us)).
  assert (Ha1 : vw s1 a = Some (ba, aa, xa)) by exact Ha. assert (Hb1 : vw s1 b = Some (bb, ab, xb)) by exact Hb.
  cbn [recombine]. rewrite (bind_ok _ _ _ _ _ (genome_eq _ _ _ _ _ Ha1)).
  rewrite (bind_ok _ _ _ _ _ (rnd1_eq (randoms (length ba)) s1)).
  set (s2 := with_r s1 (snd (randoms (length ba) (hrng s1)))).
  assert (Hb2 : vw s2 b = Some (bb, ab, xb)) by exact Hb. assert (Ha2 : vw s2 a = Some (ba, aa, xa)) by exact Ha.
  rewrite (bind_ok _ _ _ _ _ (genome_eq _ _ _ _ _ Hb2)). rewrite <- HL, Nat.eqb_refl.
  rewrite (clone_with_eq _ _ _ _ _ _ Ha2). eexists _, _, _. split; [reflexivity|]. apply shows_vw. eexists.
  rewrite vw_push, Nat.eqb_refl by exact HB. cbn [s1 hrng]. rewrite <- HLu, randoms_scripted.
  pose proof (mix_bits_onto ba bb bits HR (eq_sym HL)) as HM. cbv zeta in HM. fold us in HM. rewrite HM. reflexivity.
Qed.

(* ----- C25 ----- *)
Lemma bit_flip_exact {K} rate (s : hst K) r bits a :
  built s -> shows s r bits a ->
  exists c s' us bits', bit_flips (Fin rate) r s = (Ok c, s') /\ ~ live s c /\ shows s' c bits' None /\
    us = fst (randoms (length bits) (hrng s)) /\ flipped rate us bits bits' /\
    (rate <= 0 -> bits' = bits) /\ (1 <= rate -> bits' = map negb bits) /\
    (forall q b0 a0, shows s q b0 a0 -> shows s' q b0 a0).
Proof.
  intros HB HS. apply built_wf in HB. apply shows_vw in HS as (x & HS).
  pose proof (bit_flips_eq (Fin rate) s r bits a x HB HS) as HE. cbv zeta in HE.
  set (us := fst (randoms (length bits) (hrng s))) in *. set (s1 := with_r s (snd (randoms (length bits) (hrng s)))) in *.
  assert (HLu : length us = length bits) by apply randoms_length.
  assert (HU : Forall (fun u => 0 <= u < 1) us) by apply randoms_range.
  eexists _, _, us, (flip_bits (Fin rate) us bits). split; [exact HE|]. split; [unfold live; lia|]. split.
  { apply shows_vw. eexists. rewrite vw_push by exact HB. change (length (sols s1)) with (length (sols s)). rewrite Nat.eqb_refl. reflexivity. }
  split; [reflexivity|]. split; [apply flip_bits_spec; auto|]. split; [|split].
  - intros Hr. clearbody us. clear - HLu HU Hr. revert us HLu HU. induction bits as [|b bits IH]; intros [|u us] HL HU; simpl in HL; try lia; auto.
    inversion HU; subst. unfold flip_bits. cbn [map2]. f_equal; [|apply IH; auto].
    cbn [nlt]. assert (qlt u rate = false) as -> by (apply qlt_false; lra). destruct b; reflexivity.
  - intros Hr. clearbody us. clear - HLu HU Hr. revert us HLu HU. induction bits as [|b bits IH]; intros [|u us] HL HU; simpl in HL; try lia; auto.
    inversion HU; subst. unfold flip_bits. cbn [map2 map]. f_equal; [|apply IH; auto].
    cbn [nlt]. assert (qlt u rate = true) as -> by (apply qlt_iff; lra). destruct b; reflexivity.
  - intros q b0 a0. apply more_shows. eapply more_trans; [apply more_with_r; exact HB|apply more_push; exact HB].
Qed.
Lemma flip_onto rate bits bits' : 0 < rate -> rate < 1 -> length bits' = length bits ->
  let us := map2 (fun x y => if Bool.eqb x y then rate else 0) bits bits' in flip_bits (Fin rate) (map u01 us) bits = bits'.
Proof.
  intros H0 H1. revert bits'. induction bits as [|x bits IH]; intros [|y bits'] HL; simpl in HL; try lia; auto.
  cbn [map2 map]. unfold flip_bits. cbn [map2]. f_equal; [|apply IH; lia]. cbn [nlt].
  destruct (Bool.eqb x y) eqn:EB.
  - assert (qlt (u01 rate) rate = false) as -> by (apply qlt_false; rewrite u01_id; lra). apply eqb_prop in EB. destruct x, y; auto; discriminate.
  - assert (qlt (u01 0) rate = true) as -> by (apply qlt_iff; rewrite u01_id; lra). destruct x, y; auto; discriminate.
Qed.
Lemma bit_flip_onto {K} rate (s : hst K) r bits a bits' :
  built s -> shows s r bits a -> 0 < rate -> rate < 1 -> length bits' = length bits ->
  exists g c s', bit_flips (Fin rate) r (mkH (garr s) (sols s) g) = (Ok c, s') /\ shows s' c bits' None.
Proof.
  intros HB HS H0 H1 HL. apply built_wf in HB. apply shows_vw in HS as (x & HS).
  set (us := map2 (fun x y => if Bool.eqb x y then rate else 0) bits bits').
  assert (HLu : length us = length bits) by (unfold us; rewrite map2_length; auto).
  exists (scripted us). set (s1 := mkH (garr s) (sols s) (scripted us)).
  assert (HV : vw s1 r = Some (bits, a, x)) by exact HS.
  pose proof (bit_flips_eq (Fin rate) s1 r bits a x HB HV) as HE. cbv zeta in HE. eexists _, _. split; [exact HE|].
  apply shows_vw. eexists. rewrite vw_push by exact HB. cbn [with_r sols]. rewrite Nat.eqb_refl.
  cbn [s1 hrng]. rewrite <- HLu, randoms_scripted. pose proof (flip_onto rate bits bits' H0 H1 HL) as HM. cbv zeta in HM. fold us in HM. rewrite HM. reflexivity.
Qed.

(* ----- C26 ----- *)
Lemma fitnesses_eq {K} (s : hst K) rs fs : Forall2 (has_fit s) rs fs -> fitnesses rs s = (Ok fs, s).
Proof.
  induction 1 as [|r f rs fs (bits & a & HS & ->) _ IH]; [reflexivity|].
  unfold fitnesses in *. cbn [mmap]. apply shows_vw in HS as (x & HS).
  rewrite (bind_ok _ _ _ _ _ (fitness_eq _ _ _ _ _ HS)). cbn.
  rewrite (bind_ok _ _ _ _ _ IH). reflexivity.
Qed.

Lemma keyed_eq' {K} (s : hst K) d : exists r, keyed d s = (r, s) /\ forall ks, r = Ok ks ->
  map snd ks = d /\ Forall (fun k => has_fit s (snd k) (fst k) \/ vw s (snd k) = None) ks.
Proof.
  unfold keyed. induction d as [|x d (r & H1 & H2)]; [eexists; split; [reflexivity|]; intros ks H; inversion H; split; [reflexivity|constructor]|].
  cbn [mmap].
  assert (HFx : fitness x s = (match nth_error (sols s) x with
            | Some o => match satt o with Some a => Ok (sfitness a) | None => Raise AttributeError end | None => Raise Dangling end, s)).
  { unfold fitness, get_satt, get_sol, bind, lift, ret, of_option. destruct (nth_error (sols s) x) as [o|]; auto. destruct (satt o); auto. }
  destruct (nth_error (sols s) x) as [o|] eqn:EO.
  2: { eexists. split; [apply bind_raise; apply bind_raise; exact HFx|discriminate]. }
  destruct (satt o) as [a|] eqn:EA.
  2: { eexists. split; [apply bind_raise; apply bind_raise; exact HFx|discriminate]. }
  rewrite (bind_ok _ _ _ (sfitness a, x) s) by (rewrite (bind_ok _ _ _ _ _ HFx); reflexivity).
  destruct r as [ks|e].
  2: { eexists. split; [apply bind_raise; exact H1|discriminate]. }
  eexists. split; [rewrite (bind_ok _ _ _ _ _ H1); reflexivity|].
  intros ks' H. injection H as <-. cbn. destruct (H2 ks eq_refl) as [H3 H4]. rewrite H3. split; [reflexivity|]. constructor; auto. cbn.
  destruct (nth_error (garr s) (gref o)) as [bits|] eqn:EG.
  - left. exists bits, a. split; auto. exists o. auto.
  - right. unfold vw. rewrite EO, EG. reflexivity.
Qed.
Lemma fittest_eq {K} (s : hst K) d w s' : fittest d s = (Ok w, s') -> s' = s /\ In w d /\
  ((forall q f, In q d -> has_fit s q f -> is_nan f = false) -> (forall q, In q d -> vw s q <> None) ->
   exists f, has_fit s w f /\ forall q f', In q d -> has_fit s q f' -> nle f' f = true).
Proof.
  unfold fittest, bind. destruct (keyed_eq' s d) as (r & H1 & H2). rewrite H1. destruct r as [ks|e]; [|discriminate].
  destruct (H2 ks eq_refl) as [HM HK]. clear H1 H2. unfold lift, of_option. destruct (pymax key_lt ks) as [k0|] eqn:HP; [|discriminate].
  cbn. intros H; inversion H; subst w s'. split; auto. pose proof (pymax_In _ _ _ HP) as HIn. split; [rewrite <- HM; apply in_map; auto|].
  intros HN HV.
  assert (HK' : forall k, In k ks -> has_fit s (snd k) (fst k) /\ In (snd k) d).
  { intros k Hk. rewrite Forall_forall in HK. assert (In (snd k) d) by (rewrite <- HM; apply in_map; auto).
    destruct (HK k Hk) as [H'|H']; auto. exfalso. eapply HV; eauto. }
  exists (fst k0). split; [apply HK'; auto|]. intros q f' Hq Hf'. rewrite <- HM in Hq. apply in_map_iff in Hq as (k & <- & Hk).
  destruct (HK' k Hk) as [Hkf Hkd]. rewrite (has_fit_fun _ _ _ _ Hf' Hkf).
  apply (pymax_ge (fun a : num * nat => fst a) ks); auto. apply Forall_forall. intros k' Hk'. destruct (HK' k' Hk') as [Ha Hb]. eapply HN; eauto.
Qed.
Lemma tournament_eq {K} k pop fs : Forall (fun f => is_nan f = false) fs -> forall (l : list nat) (s : hst K) r s',
  Forall2 (has_fit s) pop fs -> mmap (fun _ : nat => let* drawn := rnd (choices pop k) in fittest drawn) l s = (Ok r, s') ->
  Forall2 (tournament_won s) (rounds (length l) k pop (hrng s)) r /\ length r = length l /\ Forall (fun x => In x pop) r.
Proof.
  intros HN. induction l as [|x l IH]; intros s r s' HF; cbn [mmap].
  - intros H; inversion H. split; [constructor|]. split; [reflexivity|constructor].
  - unfold bind at 1. unfold bind at 1. rewrite rnd_eq. cbn [length rounds].
    destruct (choices pop k (hrng s)) as [[d|e] g] eqn:HC; cbn [fst snd]; [|discriminate].
    destruct (fittest d (with_r s g)) as [[w|e] s1] eqn:HW; [|discriminate].
    apply fittest_eq in HW as (-> & HIn & HB). unfold bind. destruct (mmap _ l (with_r s g)) as [[r'|e] s2] eqn:HM; [|discriminate].
    intros H; inversion H; subst. assert (HF' : Forall2 (has_fit (with_r s g)) pop fs) by exact HF.
    destruct (IH _ _ _ HF' HM) as (H1 & H2 & H3). apply choices_ok in HC as [_ HC]. rewrite Forall_forall in HC.
    assert (HP : forall q, In q pop -> exists f, has_fit s q f /\ is_nan f = false).
    { intros q Hq. apply In_nth_error in Hq as (i & Hi). apply Forall2_nth in HF as [HL HF].
      destruct (nth_error fs i) as [f|] eqn:Ef; [|exfalso; apply nth_error_None in Ef; assert (i < length pop)%nat by (apply nth_error_Some; congruence); lia].
      exists f. split; [eapply HF; eauto|]. rewrite Forall_forall in HN. apply HN. eapply nth_error_In; eauto. }
    split; [|split; [simpl; lia|constructor; auto]]. constructor; [|exact H1]. split; [auto|]. apply HB.
    + intros q f Hq Hf. destruct (HP q (HC q Hq)) as (f' & Hf' & Hn). assert (f = f') by (eapply has_fit_fun; [exact Hf|exact Hf']). subst; auto.
    + intros q Hq. destruct (HP q (HC q Hq)) as (f' & (bits & a & HS & _) & _). apply shows_vw in HS as (x0 & HS).
      change (vw (with_r s g) q) with (vw s q). congruence.
Qed.
Lemma select_members {K} k pop n (s : hst K) r s' fs :
  Forall2 (has_fit s) pop fs -> Forall (fun f => is_nan f = false) fs ->
  select k pop n s = (Ok r, s') -> length r = n /\ Forall (fun x => In x pop) r.
Proof.
  intros HF HN. destruct k as [| | |k]; cbn [select].
  - rewrite rnd_eq. destruct (choices pop n (hrng s)) as [[x|e] g] eqn:HC; cbn; intros H; inversion H; subst. apply choices_ok in HC; auto.
  - rewrite (bind_ok _ _ _ _ _ (fitnesses_eq _ _ _ HF)). destruct (roulette_weights fs) as [w|].
    + unfold choices_num. destruct (finites w) as [qs|].
      * rewrite rnd_eq. destruct (choices_p pop n qs (hrng s)) as [[x|e] g] eqn:HC; cbn; intros H; inversion H; subst.
        apply choices_p_ok in HC as (H1 & _ & _ & _ & H2). split; auto. eapply Forall_impl; [|exact H2].
        intros y (i & p & Hi & _). eapply nth_error_In; eauto.
      * rewrite rnd_eq. discriminate.
    + rewrite rnd_eq. destruct (choices pop n (hrng s)) as [[x|e] g] eqn:HC; cbn; intros H; inversion H; subst. apply choices_ok in HC; auto.
  - rewrite (bind_ok _ _ _ _ _ (fitnesses_eq _ _ _ HF)). rewrite rnd_eq.
    destruct (choices_p pop n (rank_weights fs) (hrng s)) as [[x|e] g] eqn:HC; cbn; intros H; inversion H; subst.
    apply choices_p_ok in HC as (H1 & _ & _ & _ & H2). split; auto. eapply Forall_impl; [|exact H2].
    intros y (i & p & Hi & _). eapply nth_error_In; eauto.
  - intros HE. apply (tournament_eq k pop fs HN _ _ _ _ HF) in HE as (_ & H1 & H2). rewrite seq_length in H1. auto.
Qed.
Lemma select_tournament {K} k pop n (s : hst K) r s' fs :
  Forall2 (has_fit s) pop fs -> Forall (fun f => is_nan f = false) fs ->
  select (SelTournament k) pop n s = (Ok r, s') -> Forall2 (tournament_won s) (rounds n k pop (hrng s)) r.
Proof.
  intros HF HN HE. apply (tournament_eq k pop fs HN _ _ _ _ HF) in HE as (H & _ & _). rewrite seq_length in H. exact H.
Qed.

(* linear rank: the i-th member is picked with a weight that grows with its fitness *)
Lemma select_linear_rank {K} pop n (s : hst K) fs :
  Forall2 (has_fit s) pop fs -> Forall (fun f => is_nan f = false) fs -> pop <> [] ->
  exists w r s', select SelLinearRank pop n s = (Ok r, s') /\
    Forall2 (fun u x => exists i, picks w u i /\ nth_error pop i = Some x) (fst (randoms n (hrng s))) r /\
    length w = length pop /\ Forall (fun p => 0 < p) w /\ qsum w == 1 /\
    forall i j x y wi wj, nth_error fs i = Some x -> nth_error fs j = Some y ->
      nth_error w i = Some wi -> nth_error w j = Some wj -> nlt x y = true -> wi < wj.
Proof.
  intros HF HN HP. assert (HL : length pop = length fs) by (eapply Forall2_len; eauto).
  assert (HNE : fs <> []) by (destruct fs, pop; simpl in *; congruence).
  destruct (rank_weights_ok fs HNE) as (H1 & H2 & H3). exists (rank_weights fs).
  destruct (choices_p_total pop n (rank_weights fs) (hrng s)) as (r & g' & HC); auto; [congruence| |].
  { eapply Forall_impl; [|exact H2]. cbn; intros; lra. }
  exists r, (with_r s g'). cbn [select]. rewrite (bind_ok _ _ _ _ _ (fitnesses_eq _ _ _ HF)). rewrite rnd_eq, HC. cbn [fst snd].
  split; [reflexivity|]. split; [eapply choices_p_picks; eauto|]. split; [congruence|]. split; auto. split; auto.
  apply rank_weights_order; auto.
Qed.

(* roulette *)
Lemma finites_spec l qs : finites l = Some qs <-> l = map Fin qs.
Proof.
  revert qs. induction l as [|x l IH]; intros qs; cbn.
  - split; [intros H; inversion H; reflexivity|]. destruct qs; [reflexivity|discriminate].
  - destruct x; try (split; [discriminate|destruct qs; discriminate]).
    destruct (finites l) as [qs'|] eqn:EF.
    + split; [intros H; inversion H; subst; cbn; f_equal; apply IH; reflexivity|].
      destruct qs as [|q' qs]; [discriminate|]. cbn. intros H; inversion H; subst. f_equal. f_equal.
      assert (Some qs' = Some qs) by (apply IH; reflexivity). congruence.
    + split; [discriminate|]. destruct qs as [|q' qs]; [discriminate|]. cbn. intros H; inversion H; subst.
      assert (None = Some qs) by (apply IH; reflexivity). discriminate.
Qed.
Lemma nsum_fin qs : forall acc, exists t, fold_left nadd (map Fin qs) (Fin acc) = Fin t /\ t == acc + qsum qs.
Proof.
  induction qs as [|q qs IH]; intros acc; cbn [map fold_left]; [exists acc; split; [auto|simpl; lra]|].
  cbn [nadd]. destruct (IH (acc + q)) as (t & H1 & H2). exists t. split; auto. rewrite H2. simpl. lra.
Qed.
Lemma ndiv_fin qs t : ~ t == 0 -> map (fun f => ndiv f (Fin t)) (map Fin qs) = map Fin (map (fun q => q / t) qs).
Proof.
  intros H. rewrite !map_map. apply map_ext. intros q. cbn. destruct (qeq_spec t 0); [contradiction|reflexivity].
Qed.
Lemma select_roulette {K} pop n (s : hst K) qs :
  Forall2 (has_fit s) pop (map Fin qs) -> Forall (fun q => 0 <= q) qs -> 0 < qsum qs ->
  exists w r s', select SelRoulette pop n s = (Ok r, s') /\
    Forall2 (fun u x => exists i, picks w u i /\ nth_error pop i = Some x) (fst (randoms n (hrng s))) r /\
    Forall2 (fun q p => p == q / qsum qs) qs w /\
    Forall (fun x => exists f, has_fit s x (Fin f) /\ 0 < f) r.
Proof.
  intros HF HP HS. cbn [select]. rewrite (bind_ok _ _ _ _ _ (fitnesses_eq _ _ _ HF)). unfold roulette_weights, nsum.
  destruct (nsum_fin qs 0) as (t & -> & Ht).
  assert (Ht0 : ~ t == 0) by lra. cbn [neqb]. destruct (qeq_spec t 0) as [H|_]; [contradiction|].
  rewrite (ndiv_fin qs t Ht0). unfold choices_num. rewrite (proj2 (finites_spec _ _) eq_refl).
  set (w := map (fun q => q / t) qs).
  assert (HL : length w = length pop). { unfold w. rewrite map_length. apply Forall2_len in HF. rewrite map_length in HF. auto. }
  destruct (choices_p_total pop n w (hrng s)) as (r & g' & HC); auto.
  { apply Forall_forall. intros p Hp. apply in_map_iff in Hp as (q & <- & Hq). rewrite Forall_forall in HP. specialize (HP q Hq).
    apply Qle_shift_div_l; lra. }
  { unfold w. rewrite qsum_map_div, Ht. field. lra. }
  { intros ->. destruct qs; [simpl in HS; lra|discriminate]. }
  exists w, r, (with_r s g'). rewrite rnd_eq, HC. cbn [fst snd]. split; [reflexivity|]. split; [eapply choices_p_picks; eauto|]. split.
  - unfold w. clear - Ht. induction qs as [|q qs IH]; cbn [map]; [constructor|].
    assert (H : forall l, Forall2 (fun q p => p == q / qsum (q :: qs)) l (map (fun q0 => q0 / t) l) -> True) by auto. clear H IH.
    enough (H : forall T l, t == T -> Forall2 (fun q p => p == q / T) l (map (fun q0 => q0 / t) l)).
    { apply (H _ (q :: qs)). lra. }
    intros T l HT. induction l as [|x l IH]; cbn [map]; constructor; auto. rewrite HT. reflexivity.
  - apply choices_p_ok in HC as (_ & _ & _ & _ & HC). eapply Forall_impl; [|exact HC]. intros x (i & p & Hi & Hw & Hp).
    unfold w in Hw. rewrite nth_error_map in Hw. destruct (nth_error qs i) as [q|] eqn:Eq; [|discriminate]. cbn in Hw. inversion Hw; subst p.
    exists q. split.
    + apply Forall2_nth in HF as [_ HF]. apply (HF i x (Fin q)); auto. rewrite nth_error_map, Eq. reflexivity.
    + rewrite Forall_forall in HP. pose proof (HP q (nth_error_In _ _ Eq)). destruct (Qlt_le_dec 0 q); auto.
      assert (q == 0) by lra. rewrite H0 in Hp. unfold Qdiv in Hp. rewrite Qmult_0_l in Hp. lra.
Qed.

(* ----- example heaps ----- *)
(* fitness: minus the number of rules, or the number of rules, or one of both signs *)
Definition count_env (f : Q -> nat -> nat -> num) : env mean_learner :=
  mkEnv (epool ex_env) (eX ex_env) (ey ex_env) (emix ex_env) f.
Definition pop_heap (f : Q -> nat -> nat -> num) (g : rng) : hst plain :=
  let E := count_env f in
  run_ops [HNew [true; true; true]; HNew [false; false; false]; HNew [true; false; false];
           HFit 0 E; HFit 1 E; HFit 2 E] (mkH [] [] g).
Definition by_count : Q -> nat -> nat -> num := fun _ c _ => Fin (qofnat c).
Definition by_minus_count : Q -> nat -> nat -> num := fun _ c _ => Fin (- qofnat (S c)).
Definition by_signed_count : Q -> nat -> nat -> num := fun _ c _ => Fin (2 - qofnat c).
Lemma pop_heap_built f g : built (pop_heap f g).
Proof. eexists _, _, g. reflexivity. Qed.
Lemma pop_heap_fit f g : forall r k, nth_error [3; 0; 1]%nat r = Some k ->
  exists e i, has_fit (pop_heap f g) r (f e k i).
Proof.
  intros [|[|[|r]]] k H; cbn in H; inversion H; subst.
  - do 4 eexists. split; [eexists; split; [vm_compute; reflexivity|split; vm_compute; reflexivity]|vm_compute; reflexivity].
  - do 4 eexists. split; [eexists; split; [vm_compute; reflexivity|split; vm_compute; reflexivity]|vm_compute; reflexivity].
  - do 4 eexists. split; [eexists; split; [vm_compute; reflexivity|split; vm_compute; reflexivity]|vm_compute; reflexivity].
  - destruct r; discriminate.
Qed.
(* shows for concrete heaps *)
Ltac show_heap := vm_compute; do 3 eexists; split; [reflexivity|split; reflexivity].

Lemma alternation_fails : forall both : bool,
  exists (s : hst plain) a b ba aa bb ab,
    built s /\ shows s a ba aa /\ shows s b bb ab /\ length ba = length bb /\
    exists c s' bits ac, recombine both (NPoint 2) a b s = (Ok c, s') /\ shows s' c bits ac /\
    forall cuts, length cuts = 2%nat -> NoDup cuts -> Forall (fun i => i < length ba)%nat cuts -> ~ alternates cuts ba bb bits.
Proof.
  intros both. exists (pop_heap by_count (scripted [1; 1])), 0%nat, 1%nat, [true; true; true].
  eexists. exists [false; false; false]. eexists.
  split; [apply pop_heap_built|].
  split; [eexists; vm_compute; split; [reflexivity|split; reflexivity]|].
  split; [eexists; vm_compute; split; [reflexivity|split; reflexivity]|].
  split; [reflexivity|].
  destruct both.
  - eexists _, _, [true; false; false], _. split; [vm_compute; reflexivity|].
    split; [eexists; vm_compute; split; [reflexivity|split; reflexivity]|].
    intros [|i [|j [|? ?]]] HL ND HF; try discriminate. intros [_ HA].
    inversion HF as [|? ? Hi HF']; subst. inversion HF' as [|? ? Hj _]; subst. cbn in Hi, Hj.
    inversion ND as [|? ? HIn _]; subst.
    pose proof (HA 0%nat (Nat.lt_0_succ _)) as H0. pose proof (HA 1%nat (le_n_S _ _ (le_n_S _ _ (Nat.le_0_l _)))) as H1. pose proof (HA 2%nat (le_n _)) as H2.
    destruct i as [|[|[|i]]], j as [|[|[|j]]]; try lia; cbn in H0, H1, H2; try discriminate; apply HIn; left; reflexivity.
  - eexists _, _, [true; false; false], _. split; [vm_compute; reflexivity|].
    split; [eexists; vm_compute; split; [reflexivity|split; reflexivity]|].
    intros [|i [|j [|? ?]]] HL ND HF; try discriminate. intros [_ HA].
    inversion HF as [|? ? Hi HF']; subst. inversion HF' as [|? ? Hj _]; subst. cbn in Hi, Hj.
    inversion ND as [|? ? HIn _]; subst.
    pose proof (HA 0%nat (Nat.lt_0_succ _)) as H0. pose proof (HA 1%nat (le_n_S _ _ (le_n_S _ _ (Nat.le_0_l _)))) as H1. pose proof (HA 2%nat (le_n _)) as H2.
    destruct i as [|[|[|i]]], j as [|[|[|j]]]; try lia; cbn in H0, H1, H2; try discriminate; apply HIn; left; reflexivity.
Qed.

(* all fitnesses negative: the worst member is the most likely one *)
Lemma roulette_inverted :
  exists (s : hst plain) pop q0 q1 q2, built s /\ Forall2 (has_fit s) pop [Fin q0; Fin q1; Fin q2] /\ q0 < q2 /\ q2 < q1 /\
    exists w w0 w1 w2, w = [w0; w1; w2] /\ w1 < w2 /\ w2 < w0 /\
      forall n g, exists r s', select SelRoulette pop n (mkH (garr s) (sols s) g) = (Ok r, s') /\
        Forall2 (fun u x => exists i, picks w u i /\ nth_error pop i = Some x) (fst (randoms n g)) r.
Proof.
  exists (pop_heap by_minus_count (scripted [])), [0; 1; 2]%nat, (-4#1), (-1#1), (-2#1).
  assert (HF : forall g, Forall2 (has_fit (mkH (garr (pop_heap by_minus_count (scripted []))) (sols (pop_heap by_minus_count (scripted []))) g)) [0; 1; 2]%nat [Fin (-4#1); Fin (-1#1); Fin (-2#1)]).
  { intros g. constructor; [|constructor; [|constructor; [|constructor]]];
      (do 2 eexists; split; [eexists; split; [vm_compute; reflexivity|split; vm_compute; reflexivity]|vm_compute; reflexivity]). }
  split; [apply pop_heap_built|]. split; [apply HF|]. split; [lra|]. split; [lra|].
  exists [(-4#1) / (-7#1); (-1#1) / (-7#1); (-2#1) / (-7#1)]. do 3 eexists. split; [reflexivity|].
  split; [reflexivity|]. split; [reflexivity|].
  intros n g. set (s := mkH _ _ g). cbn [select]. rewrite (bind_ok _ _ _ _ _ (fitnesses_eq _ _ _ (HF g))).
  assert (HW : roulette_weights [Fin (-4#1); Fin (-1#1); Fin (-2#1)] = Some [Fin ((-4#1) / (-7#1)); Fin ((-1#1) / (-7#1)); Fin ((-2#1) / (-7#1))]) by reflexivity.
  rewrite HW.
  assert (HX : choices_num [0;1;2]%nat n [Fin ((-4#1) / (-7#1)); Fin ((-1#1) / (-7#1)); Fin ((-2#1) / (-7#1))] = choices_p [0;1;2]%nat n [(-4#1) / (-7#1); (-1#1) / (-7#1); (-2#1) / (-7#1)]) by reflexivity.
  rewrite HX. destruct (choices_p_total [0;1;2]%nat n [(-4#1) / (-7#1); (-1#1) / (-7#1); (-2#1) / (-7#1)] g) as (r & g' & HC).
  { reflexivity. } { repeat constructor; discriminate. } { reflexivity. } { discriminate. }
  exists r, (with_r s g'). rewrite rnd_eq. cbv beta. cbn [hrng]. rewrite HC. split; [reflexivity|]. eapply choices_p_picks; eauto.
Qed.
Lemma roulette_mixed_signs :
  exists (s : hst plain) pop q0 q1 q2, built s /\ Forall2 (has_fit s) pop [Fin q0; Fin q1; Fin q2] /\ q0 < 0 /\ 0 < q1 /\ 0 < q2 /\
    forall n g, fst (select SelRoulette pop n (mkH (garr s) (sols s) g)) = Raise ValueError.
Proof.
  exists (pop_heap by_signed_count (scripted [])), [0; 1; 2]%nat, (-1#1), 2, 1.
  assert (HF : forall g, Forall2 (has_fit (mkH (garr (pop_heap by_signed_count (scripted []))) (sols (pop_heap by_signed_count (scripted []))) g)) [0; 1; 2]%nat [Fin (-1#1); Fin 2; Fin 1]).
  { intros g. constructor; [|constructor; [|constructor; [|constructor]]];
      (do 2 eexists; split; [eexists; split; [vm_compute; reflexivity|split; vm_compute; reflexivity]|vm_compute; reflexivity]). }
  split; [apply pop_heap_built|]. split; [apply HF|]. split; [lra|]. split; [lra|]. split; [lra|].
  intros n g. cbn [select]. rewrite (bind_ok _ _ _ _ _ (fitnesses_eq _ _ _ (HF g))). reflexivity.
Qed.
