(* Novelty search: the properties of one novelty calculation. *)
From Coq Require Import Permutation Sorted.
From Verif Require Import PyNum PyList PyMon PyRng PyStat L_Num L_List L_Rng M_Matching S_Matching L_Matching M_Rule S_Rule L_Rule L_RuleProps M_RuleGen M_Mixing M_GenomeOps M_Discovery S_Discovery L_SasProps L_Discovery L_DiscoveryProps M_Novelty S_Novelty L_NoveltyNum L_Novelty L_NoveltyScore.
From Coq Require Import Lqa.

Definition okscore (b : ncalc) (t : nstype) (s : num) : Prop :=
  match b with NBiased _ _ => True | _ => exists q, s = Fin q /\ 0 <= q <= match t with TLocal _ => 2 | _ => 1 end end.

(* ----- median ----- *)
Definition low (a : num) : Prop := a = NInf \/ exists q, a = Fin q.
Lemma low_le a b c : low a -> low b -> low c -> nle a b = true -> nle b c = true -> nle a c = true. Proof. intros _ _ _ H1 H2. eapply nle_trans; eauto. Qed.
Lemma low_refl a : low a -> nle a a = true. Proof. intros [->|(q & ->)]; apply nle_refl; reflexivity. Qed.
Lemma sorted_nth s : StronglySorted (fun x y => nle x y = true) s -> Forall low s -> forall i j, (i <= j)%nat -> (j < length s)%nat -> nle (nth i s NaN) (nth j s NaN) = true.
Proof.
  induction 1 as [|x s HS IH HF]; intros HL i j Hij Hj; [cbn in Hj; lia|]. inversion HL as [|? ? Hx HL']; subst. destruct i as [|i], j as [|j]; cbn in *; try lia.
  - apply low_refl. exact Hx.
  - rewrite Forall_forall in HF. apply HF, nth_In. lia.
  - apply IH; [assumption|lia|lia].
Qed.
Lemma filter_le {A} (P : A -> bool) l : (length (filter P l) <= length l)%nat. Proof. induction l as [|a l IH]; cbn; [lia|]. destruct (P a); cbn; lia. Qed.
Lemma filter_none {A} (P : A -> bool) l : Forall (fun a => P a = false) l -> filter P l = [].
Proof. induction 1 as [|a l H HF IH]; [reflexivity|]. cbn. rewrite H. exact IH. Qed.
Lemma count_below s m k : StronglySorted (fun x y => nle x y = true) s -> Forall low s -> (k < length s)%nat -> nle m (nth k s NaN) = true -> (length (filter (fun v => nlt v m) s) <= k)%nat.
Proof.
  intros HS. revert k. induction HS as [|x s HS IH HF]; intros k HL Hk Hm; [cbn in Hk; lia|]. inversion HL as [|? ? Hx HL']; subst. destruct k as [|k]; cbn [nth] in Hm.
  - rewrite filter_none; [cbn; lia|]. constructor; [apply nle_not_nlt; exact Hm|]. revert HF. apply Forall_impl. intros y Hy. apply nle_not_nlt. eapply nle_trans; eauto.
  - cbn in Hk. specialize (IH k HL' ltac:(lia) Hm). cbn [filter]. destruct (nlt x m); cbn; lia.
Qed.
Lemma count_above s m j : StronglySorted (fun x y => nle x y = true) s -> Forall low s -> (j < length s)%nat -> nle (nth j s NaN) m = true -> (length (filter (fun v => nlt m v) s) <= length s - 1 - j)%nat.
Proof.
  intros HS. revert j. induction HS as [|x s HS IH HF]; intros j HL Hk Hm; [cbn in Hk; lia|]. inversion HL as [|? ? Hx HL']; subst.
  assert (Hxm : nle x m = true). { destruct j as [|j]; [exact Hm|]. cbn in Hm, Hk. eapply nle_trans; [|exact Hm]. rewrite Forall_forall in HF. apply HF, nth_In. lia. }
  cbn [filter]. apply nle_not_nlt in Hxm. rewrite Hxm. destruct j as [|j].
  - cbn. pose proof (filter_le (fun v => nlt m v) s). lia.
  - cbn in Hk, Hm. specialize (IH j HL' ltac:(lia) Hm). cbn [length]. lia.
Qed.
Lemma median_split l : l <> [] -> Forall low l -> (exists e, In e l /\ nle (nmedian l) e = true) /\
  (2 * length (filter (fun v => nlt v (nmedian l)) l) <= length l)%nat /\ (2 * length (filter (fun v => nlt (nmedian l) v) l) <= length l)%nat.
Proof.
  intros Hl HF. set (s := PyList.sort nlt l). set (k := Nat.div2 (length l)). assert (Hs : length s = length l) by apply sort_length.
  assert (H0 : (0 < length l)%nat) by (destruct l; [congruence|cbn; lia]).
  assert (Hk : (k < length l)%nat) by (apply Nat.lt_div2; exact H0).
  assert (HI : forall j, (j < length l)%nat -> In (nth j s NaN) l) by (intros j Hj; apply (sort_In nlt); apply nth_In; fold s; lia).
  assert (HLo : forall a, In a l -> low a) by (apply Forall_forall; exact HF).
  assert (HSs : StronglySorted (fun x y => nle x y = true) s).
  { apply (sort_sorted (fun x => x)). revert HF. apply Forall_impl. intros x [->|(q & ->)]; reflexivity. }
  assert (HLs : Forall low s) by (apply Forall_forall; intros x Hx; apply HLo; apply (sort_In nlt); exact Hx).
  assert (HM : nle (nmedian l) (nth k s NaN) = true /\ exists j, (j < length l)%nat /\ (2 * (length l - 1 - j) <= length l)%nat /\ (2 * k <= length l)%nat /\ nle (nth j s NaN) (nmedian l) = true).
  { unfold nmedian. assert (HN : existsb is_nan l = false).
    { apply not_true_is_false. intros H. apply existsb_exists in H as (x & Hx & Hn). destruct (HLo x Hx) as [->|(q & ->)]; discriminate. }
    rewrite HN. fold s. fold k. pose proof (Nat.div2_odd (length l)) as HD. fold k in HD. destruct (Nat.odd (length l)); cbn [Nat.b2n] in HD.
    - assert (low (nth k s NaN)) by (apply HLo, HI; exact Hk). destruct l as [|l0 l']; [congruence|]. split; [apply low_refl; assumption|]. exists k. split; [exact Hk|]. split; [lia|]. split; [lia|apply low_refl; assumption].
    - set (a := nth (k - 1) s NaN). set (b := nth k s NaN). assert (Ha : low a) by (apply HLo, HI; lia). assert (Hb : low b) by (apply HLo, HI; lia).
      assert (Hab : nle a b = true) by (apply sorted_nth; [exact HSs|exact HLs|lia|lia]).
      destruct l as [|l0 l']; [congruence|]. split.
      + destruct Ha as [->|(x & ->)], Hb as [->|(y & ->)]; cbn in *; try reflexivity; try discriminate. apply qle_iff in Hab. apply qle_iff. apply Qle_shift_div_r; lra.
      + exists (k - 1)%nat. fold a. split; [lia|]. split; [cbn [length] in *; lia|]. split; [lia|]. destruct Ha as [->|(x & ->)], Hb as [->|(y & ->)]; cbn in *; try reflexivity; try discriminate. apply qle_iff in Hab. apply qle_iff. apply Qle_shift_div_l; lra. }
  destruct HM as (M1 & j & J1 & J2 & J3 & J4). split; [exists (nth k s NaN); split; [apply HI; exact Hk|exact M1]|]. split.
  - pose proof (count_below s (nmedian l) k HSs HLs ltac:(lia) M1) as H. rewrite (filter_perm_length _ _ _ (sort_perm nlt l)) in H. lia.
  - pose proof (count_above s (nmedian l) j HSs HLs ltac:(lia) J4) as H. rewrite (filter_perm_length _ _ _ (sort_perm nlt l)) in H. rewrite Hs in H. lia.
Qed.

Section Props.
Variable L : learner.
Variable D : denv L.
Variable d : nat.
Hypothesis HT : table d (dX D) (dy D).
Hypothesis HX : dX D <> [].
Hypothesis HP : forall m e, exists q, rfitness L m e = Fin q.
Implicit Types st : nst L.
Notation allok := (allok L D d).
Notation okheap := (okheap L D d).
Notation has := (has L).
Notation grown := (grown L).
Notation msof := (msof L).
Notation fitof := (fitof L).
Notation scof := (scof L).
Notation cnt := (cnt L).

Lemma ready_iff st : ready d (dX D) (dy D) st <-> okheap st /\ Forall (has st) (arch st).
Proof.
  unfold ready, L_Novelty.okheap, okcell, good. split.
  - intros [H1 H2]. split; [|exact H2]. revert H1. apply Forall_impl. intros c (A & B & C & E). split; [split; assumption|]. split; assumption.
  - intros [H1 H2]. split; [|exact H2]. revert H1. apply Forall_impl. intros c ((A & B) & C & E). split; [exact A|]. split; [exact B|]. split; assumption.
Qed.
Lemma fit_low st i : allok st -> live st i -> low (fitof st i).
Proof.
  intros HA HL. destruct (live_cell L st i HL) as (c & Hc). pose proof (allok_cell L D d _ _ _ HA Hc) as HG. unfold L_NoveltyScore.fitof. rewrite Hc.
  destruct (good_att L D d _ HG) as (t & Ht). destruct (good_matched L D d _ t HG Ht) as [H1 H0]. unfold rfit, fit_or_nan. rewrite Ht.
  destruct (is_valid (crule c)) eqn:E.
  - apply (is_valid_iff L D d _ HG) in E. destruct (H1 E) as (_ & (e & _ & ->) & _). destruct (HP (cond (crule c)) e) as (q & ->). right. eauto.
  - assert (N : ~ matches_some (dX D) (crule c)) by (intros N; apply (is_valid_iff L D d _ HG) in N; congruence). destruct (H0 N) as (_ & _ & -> & _). left. reflexivity.
Qed.
Lemma low_nan a : low a -> is_nan a = false. Proof. intros [->|(q & ->)]; reflexivity. Qed.

(* ----- minimal criteria ----- *)
Lemma matches_msof st i ms : matches_are st i ms -> msof st i = ms.
Proof. intros (c & t & H & Ht & E). unfold L_Novelty.msof. rewrite H, Ht. exact E. Qed.
Lemma filter_compress {A} (P : A -> bool) l : filter P l = compress l (map P l).
Proof. induction l as [|a l IH]; cbn; [reflexivity|]. rewrite IH. destruct (P a); reflexivity. Qed.
Lemma filter_drop {A} (P : A -> bool) l : (length l - length (filter P l))%nat = length (filter (fun a => negb (P a)) l).
Proof.
  assert (H : (length (filter P l) + length (filter (fun a => negb (P a)) l))%nat = length l); [|lia].
  induction l as [|a l IH]; cbn; [reflexivity|]. destruct (P a); cbn; lia.
Qed.
Lemma minimal_criteria st q rs : ready d (dX D) (dy D) st -> Forall (live st) rs -> rs <> [] -> 0 <= q <= 100 ->
  exists out keep, filter_rules (TMinimal q) rs st = (Ok out, st) /\ out <> [] /\ out = compress rs keep /\ length keep = length rs /\
    (forall i ms, In i rs -> matches_are st i ms -> (25 <= length (filter (fun b => b) ms))%nat -> In i out) /\
    (forall i j ms ms', In i out -> In j rs -> matches_are st i ms -> matches_are st j ms' -> (length (filter (fun b => b) ms) <= length (filter (fun b => b) ms'))%nat -> In j out) /\
    inject_Z (Z.of_nat (length rs - length out)) < q / 100 * inject_Z (Z.of_nat (length rs - 1)) + 1.
Proof.
  intros HR HL HN Hq. apply ready_iff in HR as [HO _]. pose proof (okheap_allok L D d st HO) as HA.
  destruct (filter_minimal L D d st q rs HA HL HN Hq) as (thr & E & Ht & (j & J1 & J2 & J3)).
  exists (filter (fun i => qle thr (cnt st i)) rs), (map (fun i => qle thr (cnt st i)) rs). split; [exact E|].
  destruct (thr_le_max L st rs thr j J1 J3) as (a & Ha & Hta).
  split; [eapply filter_nonempty; [exact Ha|apply qle_iff; exact Hta]|]. split; [apply filter_compress|]. split; [apply map_length|]. split; [|split].
  - intros i ms Hi Hm H25. apply filter_In. split; [exact Hi|]. apply qle_iff. unfold L_NoveltyScore.cnt. rewrite (matches_msof st i ms Hm), count_true_filter.
    apply qofnat_le in H25. change (qofnat 25) with 25 in H25. lra.
  - intros i k ms ms' Hi Hk Hm Hm' Hle. apply filter_In in Hi as [Hi Hti]. apply filter_In. split; [exact Hk|]. apply qle_iff in Hti. apply qle_iff.
    unfold L_NoveltyScore.cnt in *. rewrite (matches_msof st i ms Hm), count_true_filter in Hti. rewrite (matches_msof st k ms' Hm'), count_true_filter. apply qofnat_le in Hle. lra.
  - rewrite filter_drop. change (inject_Z (Z.of_nat (length (filter (fun a0 => negb (qle thr (cnt st a0))) rs)))) with (qofnat (length (filter (fun a0 => negb (qle thr (cnt st a0))) rs))).
    change (inject_Z (Z.of_nat (length rs - 1))) with (qofnat (length rs - 1)). eapply Qle_lt_trans; [|exact J2]. apply qofnat_le.
    assert (HB : (length (filter (fun v => qlt v thr) (PyList.sort qlt (map (cnt st) rs))) <= j)%nat).
    { apply sorted_below; [apply qsort_sorted|rewrite sort_length, map_length; exact J1|exact J3]. }
    rewrite (filter_perm_length _ _ _ (sort_perm qlt (map (cnt st) rs))) in HB. eapply Nat.le_trans; [|exact HB]. apply Nat.eq_le_incl. clear.
    induction rs as [|x rs IH]; cbn; [reflexivity|]. destruct (qle_spec thr (cnt st x)), (qlt_spec (cnt st x) thr); cbn; try lra; try lia; exfalso; lra.
Qed.

(* ----- one whole calculation ----- *)
Lemma score_range b t k st local i : okheap st -> has st i -> type_ok t -> okscore b t (scorev L b t k st local i).
Proof.
  intros HO (c & ds & Hc & Hd) Ht. assert (HU : Forall unit ds). { unfold L_Novelty.okheap in HO. rewrite Forall_nth_error in HO. destruct (HO i c Hc) as (_ & _ & O3). exact (proj2 (O3 ds Hd)). }
  assert (E : dsof L st i = ds) by (unfold dsof; rewrite Hc, Hd; reflexivity).
  assert (HM : unit (mean_nearest k (dsof L st i))) by (rewrite E; apply mean_nearest_unit; exact HU).
  assert (HLc : unit (lcv L t st local i)).
  { destruct t as [|q|range]; cbn [lcv]; try (split; lra). cbn in Ht. assert (Hp : 0 < qofnat range) by (apply qofnat_pos; exact Ht).
    match goal with |- unit (qofnat ?n / _) => pose proof (qofnat_nonneg n) as Hn; assert (Hle : (n <= range)%nat) end.
    { eapply Nat.le_trans; [apply count_true_le|]. rewrite !map_length, firstn_length. lia. }
    apply qofnat_le in Hle. split; [apply Qle_shift_div_l|apply Qle_shift_div_r]; lra. }
  assert (HZ : (forall r, t <> TLocal r) -> lcv L t st local i = 0) by (intros HH; destruct t; try reflexivity; exfalso; eapply HH; reflexivity).
  unfold okscore, scorev, basev. destruct b; try exact I; cbn [nadd]; (eexists; split; [reflexivity|]); unfold unit in *; destruct t; try lra; rewrite HZ by discriminate; lra.
Qed.
Definition novelty_done b t k rs st : Prop :=
  exists out fl st', novelty b t k rs st = (Ok out, st') /\ out <> [] /\ incl out fl /\ incl fl rs /\ grown st st' /\ okheap st' /\ Forall (has st') (arch st') /\
    Forall (has st') fl /\ (forall x, In x fl -> exists s, scof st' x = Some s /\ okscore b t s) /\
    ((forall q, t <> TMinimal q) -> b <> NProgressive -> fl = rs) /\ (b <> NPareto -> out = fl).
Lemma novelty_score_done b t k rs st : okheap st -> Forall (has st) (arch st) -> Forall (live st) rs -> rs <> [] -> type_ok t ->
  exists fl st', filter_rules t rs st = (Ok fl, st) /\ novelty_score b t k rs st = (Ok fl, st') /\ fl <> [] /\ incl fl rs /\ grown st st' /\ okheap st' /\ Forall (has st') (arch st') /\
    Forall (has st') fl /\ (forall x, In x fl -> exists s, scof st' x = Some s /\ okscore b t s) /\ ((forall q, t <> TMinimal q) -> fl = rs).
Proof.
  intros HO HAr HL HR Ht. destruct (novelty_score_total L D d HT HX b t k rs st HO HAr HL HR Ht) as (fl & st1 & st' & f & E1 & N1 & I1 & F1 & E2 & G1 & HO1 & H1 & E3 & S3 & F3 & N3).
  exists fl, st'. split; [exact E1|]. split; [exact E3|]. split; [exact N1|]. split; [exact I1|]. pose proof (scored_grown L _ _ _ S3) as G3.
  split; [eapply grown_trans; eauto|]. split; [eapply scored_okheap; eauto|].
  apply Forall_app in H1 as [Ha Hf]. split.
  - destruct G1 as (A1 & _). destruct S3 as (A3 & G3' & HS3). rewrite A3, A1. revert Ha. apply Forall_impl. intros i Hi. eapply (scored_has L st1 st' f); [split; [exact A3|split; [exact G3'|exact HS3]]|exact Hi].
  - split; [revert Hf; apply Forall_impl; intros i; eapply scored_has; eauto|]. split; [|exact F1]. intros x Hx. rewrite Forall_forall in Hf. specialize (Hf x Hx).
    exists (scorev L b t k st1 (arch st ++ fl) x). split; [rewrite (scored_scof L _ _ _ _ S3 (has_live L _ _ Hf)), (F3 x Hx); reflexivity|]. apply score_range; assumption.
Qed.
Lemma by_key_nonempty {B} (lt : B -> B -> bool) (l : list (nat * B)) : l <> [] -> by_key lt l <> [].
Proof. intros H E. apply H. apply Permutation_nil. rewrite <- E. apply by_key_perm. Qed.
Lemma novelty_total b t k rs st : okheap st -> Forall (has st) (arch st) -> Forall (live st) rs -> rs <> [] -> type_ok t -> novelty_done b t k rs st.
Proof.
  intros HO HAr HL HR Ht. unfold novelty_done. destruct b as [| | |nb fb].
  - destruct (novelty_score_done NBasic t k rs st HO HAr HL HR Ht) as (fl & st' & EF & E & N & I & G & O & A & H & S & F). exists fl, fl, st'. cbn [novelty].
    repeat (split; [first [assumption|apply incl_refl]|]). split; [intros H1 _; apply F; exact H1|reflexivity].
  - cbn [novelty]. pose proof (okheap_allok L D d st HO) as HA. unfold bind. rewrite (mmap_pure L _ (fitof st)).
    2:{ revert HL. apply Forall_impl. intros i Hi. apply (fitness_of_eq L D d); assumption. }
    rewrite (filter_combine (fun v => nle (nmedian (map (fitof st) rs)) v) (fitof st) rs). set (rs' := filter (fun a => nle (nmedian (map (fitof st) rs)) (fitof st a)) rs).
    assert (HR' : rs' <> []).
    { destruct (median_split (map (fitof st) rs)) as [(e & He & Hm) _]; [destruct rs; [congruence|discriminate]|rewrite Forall_map; revert HL; apply Forall_impl; intros i Hi; apply fit_low; assumption|].
      apply in_map_iff in He as (i & <- & Hi). eapply filter_nonempty; [exact Hi|exact Hm]. }
    assert (HI : incl rs' rs) by (intros i Hi; apply filter_In in Hi; apply Hi).
    assert (HL' : Forall (live st) rs') by (apply Forall_forall; intros i Hi; rewrite Forall_forall in HL; apply HL, HI; exact Hi).
    destruct (novelty_score_done NProgressive t k rs' st HO HAr HL' HR' Ht) as (fl & st' & EF & E & N & I & G & O & A & H & S & F). exists fl, fl, st'.
    split; [exact E|]. split; [exact N|]. split; [apply incl_refl|]. split; [eapply incl_tran; eauto|]. repeat (split; [assumption|]). split; [congruence|reflexivity].
  - cbn [novelty]. destruct (novelty_score_done NPareto t k rs st HO HAr HL HR Ht) as (fl & st' & EF & E & N & I & G & O & A & H & S & F). unfold bind. rewrite E.
    rewrite (pareto_keys L D d st' fl (okheap_allok L D d st' O)).
    2:{ apply Forall_forall. intros i Hi. rewrite Forall_forall in H. split; [apply has_live, H; exact Hi|]. destruct (S i Hi) as (s & Hs & _). eauto. }
    destruct (by_key (lex_lt nlt) (map (fun i => (i, fkey L st' i)) fl)) as [|p l] eqn:EK; [exfalso; eapply by_key_nonempty; [|exact EK]; destruct fl; [congruence|discriminate]|].
    exists (map fst (p :: front (snd (snd p)) l)), fl, st'. split; [reflexivity|]. split; [discriminate|]. split.
    + intros i Hi. apply in_map_iff in Hi as (q & <- & Hq). assert (HI : In q (p :: l)) by (destruct Hq as [<-|Hq]; [left; reflexivity|right; eapply front_incl; eauto]).
      rewrite <- EK in HI. apply (Permutation_in q (by_key_perm (lex_lt nlt) _)) in HI. apply in_map_iff in HI as (j & <- & Hj). exact Hj.
    + split; [exact I|]. repeat (split; [assumption|]). split; [intros H1 _; apply F; exact H1|congruence].
  - destruct (novelty_score_done (NBiased nb fb) t k rs st HO HAr HL HR Ht) as (fl & st' & EF & E & N & I & G & O & A & H & S & F). exists fl, fl, st'. cbn [novelty].
    repeat (split; [first [assumption|apply incl_refl]|]). split; [intros H1 _; apply F; exact H1|reflexivity].
Qed.

(* ----- progressive minimal criteria ----- *)
Lemma filter_map_length {A B} (P : B -> bool) (v : A -> B) l : length (filter P (map v l)) = length (filter (fun a => P (v a)) l).
Proof. induction l as [|a l IH]; cbn; [reflexivity|]. destruct (P (v a)); cbn; rewrite IH; reflexivity. Qed.
Lemma filter_length_mono {A} (P R : A -> bool) l : (forall a, In a l -> P a = true -> R a = true) -> (length (filter P l) <= length (filter R l))%nat.
Proof.
  induction l as [|a l IH]; intros H; cbn; [lia|]. specialize (IH (fun b Hb => H b (or_intror Hb))). destruct (P a) eqn:E; [rewrite (H a (or_introl eq_refl) E); cbn; lia|destruct (R a); cbn; lia].
Qed.
Lemma progressive_filter t k rs st : ready d (dX D) (dy D) st -> Forall (live st) rs -> rs <> [] -> type_ok t -> (forall q, t <> TMinimal q) ->
  exists out keep st', novelty NProgressive t k rs st = (Ok out, st') /\ out <> [] /\ out = compress rs keep /\ length keep = length rs /\
    (2 * (length rs - length out) <= length rs)%nat /\
    (forall i j f h, In i out -> In j rs -> fitness_at st i f -> fitness_at st j h -> nle f h = true -> In j out) /\
    (forall i f fitter, In i out -> fitness_at st i f -> incl fitter rs -> NoDup fitter -> (forall j, In j fitter -> exists h, fitness_at st j h /\ nlt f h = true) -> (2 * length fitter <= length rs)%nat).
Proof.
  intros HR HL HN Ht Htm. apply ready_iff in HR as [HO HAr]. pose proof (okheap_allok L D d st HO) as HA. cbn [novelty]. unfold bind. rewrite (mmap_pure L _ (fitof st)).
  2:{ revert HL. apply Forall_impl. intros i Hi. apply (fitness_of_eq L D d); assumption. }
  rewrite (filter_combine (fun v => nle (nmedian (map (fitof st) rs)) v) (fitof st) rs). set (m := nmedian (map (fitof st) rs)). set (kp := fun a => nle m (fitof st a)).
  assert (HLo : forall i, In i rs -> low (fitof st i)) by (intros i Hi; apply fit_low; [exact HA|rewrite Forall_forall in HL; auto]).
  destruct (median_split (map (fitof st) rs)) as [(e & He & Hm) [M1 M2]]; [destruct rs; [congruence|discriminate]|rewrite Forall_map; apply Forall_forall; exact HLo|]. fold m in Hm, M1, M2.
  assert (HR' : filter kp rs <> []) by (apply in_map_iff in He as (i & <- & Hi); eapply filter_nonempty; [exact Hi|exact Hm]).
  assert (HI : incl (filter kp rs) rs) by (intros i Hi; apply filter_In in Hi; apply Hi).
  assert (HL' : Forall (live st) (filter kp rs)) by (apply Forall_forall; intros i Hi; rewrite Forall_forall in HL; apply HL, HI; exact Hi).
  destruct (novelty_score_done NProgressive t k (filter kp rs) st HO HAr HL' HR' Ht) as (fl & st' & EF & E & N & I & G & O & A & H & S & F). assert (fl = filter kp rs) by (apply F; exact Htm). subst fl.
  exists (filter kp rs), (map kp rs), st'. split; [exact E|]. split; [exact HR'|]. split; [apply filter_compress|]. split; [apply map_length|]. split; [|split].
  - rewrite filter_drop. rewrite map_length, filter_map_length in M1. eapply Nat.le_trans; [|exact M1]. apply Nat.mul_le_mono_l. apply filter_length_mono. intros a Ha Hk. unfold kp in Hk.
    apply negb_true_iff in Hk. destruct (nlt (fitof st a) m) eqn:EE; [reflexivity|]. exfalso. apply nlt_false_nle in EE; [congruence| |].
    + apply low_nan. apply HLo. exact Ha.
    + destruct e; cbn in Hm; destruct m; try reflexivity; try discriminate.
  - intros i j f h Hi Hj Fi Fj Hle. apply filter_In in Hi as [Hi Hk]. apply filter_In. split; [exact Hj|]. unfold kp in *. rewrite (fitness_at_fitof L _ _ _ Fj). rewrite (fitness_at_fitof L _ _ _ Fi) in Hk. eapply nle_trans; eauto.
  - intros i f fitter Hi Fi Hin HD Hf. apply filter_In in Hi as [Hi Hk]. unfold kp in Hk. rewrite (fitness_at_fitof L _ _ _ Fi) in Hk. rewrite map_length, filter_map_length in M2.
    eapply Nat.le_trans; [|exact M2]. apply Nat.mul_le_mono_l. apply NoDup_incl_length; [exact HD|]. intros j Hj. apply filter_In. split; [apply Hin; exact Hj|]. destruct (Hf j Hj) as (h & Hh & Hlt).
    rewrite (fitness_at_fitof L _ _ _ Hh). eapply nle_nlt_trans; eauto.
Qed.

(* ----- Pareto front ----- *)
Lemma pareto_spec t k rs st : okheap st -> Forall (has st) (arch st) -> Forall (live st) rs -> rs <> [] -> type_ok t ->
  exists out fl st', novelty NPareto t k rs st = (Ok out, st') /\ filter_rules t rs st = (Ok fl, st) /\ incl out fl /\ incl fl rs /\ ((forall q, t <> TMinimal q) -> fl = rs) /\
    (forall i, In i fl -> (forall j, In j fl -> ~ dominates st' j i) -> In i out) /\
    (forall i j, In i out -> In j fl -> ~ beats_in_both st' j i).
Proof.
  intros HO HAr HL HR Ht. cbn [novelty]. destruct (novelty_score_done NPareto t k rs st HO HAr HL HR Ht) as (fl & st' & EF & E & N & I & G & O & A & H & S & F).
  pose proof (okheap_allok L D d st' O) as HA. unfold bind. rewrite E. rewrite (pareto_keys L D d st' fl HA).
  2:{ apply Forall_forall. intros i Hi. rewrite Forall_forall in H. split; [apply has_live, H; exact Hi|]. destruct (S i Hi) as (s & Hs & _). eauto. }
  set (ks := map (fun i => (i, fkey L st' i)) fl) in *. assert (HNN : Forall (fun i => is_nan (sval L st' i) = false /\ is_nan (fitof st' i) = false) fl).
  { apply Forall_forall. intros i Hi. rewrite Forall_forall in H. split; [|apply low_nan, fit_low; [exact HA|apply has_live, H; exact Hi]].
    destruct (S i Hi) as (s & Hs & (q & -> & _)). unfold sval. rewrite Hs. reflexivity. }
  pose proof (by_key_sorted L st' fl HNN) as HS. fold ks in HS. pose proof (by_key_perm (lex_lt nlt) ks) as HPm.
  assert (HNk : Forall (fun q : nat * (num * num) => is_nan (snd (snd q)) = false) (by_key (lex_lt nlt) ks)).
  { eapply Permutation_Forall; [symmetry; exact HPm|]. unfold ks. rewrite Forall_map. revert HNN. apply Forall_impl. intros i [_ Hi]. exact Hi. }
  destruct (by_key (lex_lt nlt) ks) as [|p l] eqn:EK; [exfalso; assert (EK' : ks = []) by (apply Permutation_nil; exact HPm); unfold ks in EK'; destruct fl; [congruence|discriminate]|].
  assert (HIN : forall q, In q (p :: l) -> exists i, q = (i, fkey L st' i) /\ In i fl).
  { intros q Hq. apply (Permutation_in q HPm) in Hq. apply in_map_iff in Hq as (i & <- & Hi). eauto. }
  assert (HFI : forall i, In i fl -> In (i, fkey L st' i) (p :: l)).
  { intros i Hi. apply (Permutation_in _ (Permutation_sym HPm)). apply in_map_iff. eauto. }
  assert (Hat : forall i, In i fl -> novelty_is st' i (sval L st' i) /\ fitness_at st' i (fitof st' i)).
  { intros i Hi. rewrite Forall_forall in H. split; [|apply (fitof_at L D d); [exact HA|apply has_live, H; exact Hi]]. apply novelty_is_iff. destruct (S i Hi) as (s & Hs & _). unfold sval. rewrite Hs. reflexivity. }
  exists (map fst (p :: front (snd (snd p)) l)), fl, st'. split; [reflexivity|]. split; [exact EF|]. split; [|split; [exact I|split; [exact F|split]]].
  - intros i Hi. apply in_map_iff in Hi as (q & <- & Hq). destruct (HIN q) as (j & -> & Hj); [destruct Hq as [<-|Hq]; [left; reflexivity|right; eapply front_incl; eauto]|exact Hj].
  - intros i Hi HD. destruct (front_skips l p HS HNk (i, fkey L st' i) (HFI i Hi)) as [HK|(z & Hz & Z1 & Z2)].
    + apply in_map_iff. exists (i, fkey L st' i). split; [reflexivity|exact HK].
    + exfalso. destruct (HIN z Hz) as (j & -> & Hj). apply (HD j Hj). destruct (Hat i Hi) as [H1 H2]. destruct (Hat j Hj) as [H3 H4]. cbn in Z1, Z2.
      exists (sval L st' j), (fitof st' j), (sval L st' i), (fitof st' i). repeat (split; [assumption|]). split; [apply nlt_nle; exact Z2|right; exact Z2].
  - intros i j Hi Hj (s & f & s' & f' & B1 & B2 & B3 & B4 & B5 & B6). apply in_map_iff in Hi as (q & Eq & Hq).
    assert (HB : exists before after, p :: l = before ++ q :: after /\ Forall (fun z => nle (snd (snd z)) (snd (snd q)) = true) before).
    { destruct Hq as [<-|Hq]; [exists [], l; split; [reflexivity|constructor]|]. inversion HNk as [|? ? Np HNl]; subst.
      destruct (front_keeps l p [p] Np) with (q := q) as (bf & af & El & HF); [constructor; [apply nle_refl; exact Np|constructor]|exact HNl|exact Hq|].
      exists (p :: bf), af. split; [cbn; f_equal; exact El|exact HF]. }
    destruct HB as (bf & af & El & HF). assert (Hqi : q = (i, fkey L st' i)).
    { destruct (HIN q) as (i' & -> & _); [rewrite El; apply in_or_app; right; left; reflexivity|]. cbn in Eq. subst i'. reflexivity. }
    assert (Hsi : s' = sval L st' i /\ f' = fitof st' i).
    { split; [apply novelty_is_iff in B3; unfold sval; rewrite B3; reflexivity|symmetry; apply (fitness_at_fitof L); exact B4]. }
    assert (Hsj : s = sval L st' j /\ f = fitof st' j).
    { split; [apply novelty_is_iff in B1; unfold sval; rewrite B1; reflexivity|symmetry; apply (fitness_at_fitof L); exact B2]. }
    destruct Hsi as [-> ->], Hsj as [-> ->]. pose proof (HFI j Hj) as Hjl. rewrite El in Hjl, HS. apply in_app_or in Hjl as [Hjl|[Hjl|Hjl]].
    + rewrite Forall_forall in HF. specialize (HF _ Hjl). rewrite Hqi in HF. cbn in HF. apply nle_not_nlt in HF. congruence.
    + rewrite Hqi in Hjl. injection Hjl as Eij _. subst j. rewrite nlt_irrefl in B6. discriminate.
    + assert (HG : StronglySorted (fun a b : nat * (num * num) => lex_ge (fun x y : num => nle y x = true) (snd a) (snd b)) (q :: af)) by (clear -HS; induction bf as [|x bf IH]; [exact HS|inversion HS; auto]).
      inversion HG as [|? ? _ HFa]; subst. rewrite Forall_forall in HFa. specialize (HFa _ Hjl). apply lex_ge_fst in HFa. cbn in HFa. apply nle_not_nlt in HFa. rewrite Hqi in HFa. cbn in HFa. congruence.
Qed.

(* ----- the exact score of rules never compared before ----- *)
Lemma added_other h i l x : x <> i -> added h i l x = repeat (h i x) (count_occ Nat.eq_dec l x).
Proof.
  intros N. induction l as [|j l IH]; [reflexivity|]. unfold added in *. cbn [flat_map count_occ]. rewrite IH. unfold step_add. apply Nat.eqb_neq in N. rewrite N, app_nil_r.
  destruct (Nat.eqb_spec x j) as [E|E]; destruct (Nat.eq_dec j x) as [E'|E']; try congruence; try reflexivity. subst j. reflexivity.
Qed.
Lemma added_self h i l : ~ In i l -> added h i l i = map (h i) l.
Proof.
  induction l as [|j l IH]; intros N; [reflexivity|]. unfold added in *. cbn [flat_map map]. rewrite IH by (intros H; apply N; right; exact H). unfold step_add. rewrite Nat.eqb_refl.
  destruct (Nat.eqb_spec i j) as [->|E]; [exfalso; apply N; left; reflexivity|reflexivity].
Qed.
Notation hd := (hd L).
Notation dsof := (dsof L).
Lemma compared_ms st i local st' x : compared L st i local st' -> live st i -> msof st' x = msof st x.
Proof.
  intros (_ & _ & _ & Hi & Hx) HL. unfold L_Novelty.msof. destruct (Nat.eq_dec x i) as [->|N].
  - destruct (live_cell L st i HL) as (c & Hc). rewrite (Hi c Hc), Hc. reflexivity.
  - rewrite (Hx x N). destruct (nth_error (cells st) x); reflexivity.
Qed.
Lemma mark_exact rs : forall local st, okheap st -> Forall (has st) local -> NoDup rs -> Forall (unseen st) rs -> (forall x, In x rs -> ~ In x local) ->
  exists st', mark local rs st = (Ok (local ++ rs), st') /\
    (forall x, ~ In x rs -> has st x -> count_occ Nat.eq_dec local x = 1%nat -> dsof st' x = dsof st x ++ map (fun i => hd st i x) rs) /\
    (forall pre x post, rs = pre ++ x :: post -> dsof st' x = map (hd st x) (local ++ pre) ++ [0] ++ map (fun i => hd st i x) post).
Proof.
  induction rs as [|i rs IH]; intros local st HO HL HD HU HDj.
  - exists st. rewrite app_nil_r. split; [reflexivity|]. split; [intros x _ _ _; rewrite app_nil_r; reflexivity|]. intros pre x post E. destruct pre; discriminate.
  - inversion HD as [|? ? Ni HD']; subst. inversion HU as [|? ? Hi HU']; subst. destruct Hi as (c & Hc & Hci). pose proof (okheap_allok L D d st HO) as HA.
    assert (Hli : live st i) by (eapply cell_live; eauto). rewrite (mark_cons L local i rs st c Hc). unfold needs_distances. rewrite Hci.
    destruct (compare_step_eq L D d HT HX st i local c HA Hc) as (st1 & E1 & C1); [revert HL; apply Forall_impl; auto|].
    destruct (compared_grown L _ _ _ _ C1) as [G1 H1]. specialize (H1 Hli).
    assert (HO1 : okheap st1) by (eapply compared_okheap; eauto).
    assert (Hil : ~ In i local) by (apply HDj; left; reflexivity).
    assert (HH : forall a b, hd st1 a b = hd st a b) by (intros a b; unfold L_Novelty.hd; rewrite !(compared_ms _ _ _ _ _ C1 Hli); reflexivity).
    destruct (IH (local ++ [i]) st1) as (st2 & E2 & A2 & B2).
    + exact HO1.
    + apply Forall_app. split; [revert HL; apply Forall_impl; intros a; apply grown_has; exact G1|constructor; [exact H1|constructor]].
    + exact HD'.
    + apply Forall_forall. intros x Hx. rewrite Forall_forall in HU'. destruct (HU' x Hx) as (cx & Hcx & Hix). assert (x <> i) by congruence.
      destruct C1 as (_ & _ & _ & _ & C5). eexists. rewrite (C5 x H), Hcx. cbn. split; [reflexivity|exact Hix].
    + intros x Hx Hin. apply in_app_or in Hin as [Hin|[<-|[]]]; [eapply HDj; [right; exact Hx|exact Hin]|contradiction].
    + assert (D1 : dsof st1 i = map (hd st i) local ++ [0]).
      { destruct C1 as (_ & _ & _ & C4 & _). unfold L_NoveltyScore.dsof. rewrite (C4 c Hc). cbn. rewrite (added_self _ _ _ Hil). reflexivity. }
      assert (D2 : forall x, x <> i -> has st x -> dsof st1 x = dsof st x ++ repeat (hd st i x) (count_occ Nat.eq_dec local x)).
      { intros x Hx (cx & dx & Hcx & Hdx). destruct C1 as (_ & _ & _ & _ & C5). unfold L_NoveltyScore.dsof. rewrite (C5 x Hx), Hcx. cbn. rewrite Hdx. cbn. rewrite (added_other _ _ _ _ Hx). reflexivity. }
      assert (HM : forall x l, map (fun a => hd st1 a x) l = map (fun a => hd st a x) l) by (intros x l; apply map_ext; intros a; apply HH).
      exists st2. rewrite <- app_assoc in E2. split; [unfold bind; rewrite E1; exact E2|]. split.
      * intros x Hx Hhx Hcx. assert (N : x <> i) by (intros ->; apply Hx; left; reflexivity).
        rewrite A2.
        -- rewrite (D2 x N Hhx), Hcx, HM. cbn [repeat map]. rewrite <- app_assoc. reflexivity.
        -- intros Hin. apply Hx. right. exact Hin.
        -- eapply grown_has; eauto.
        -- rewrite count_occ_app. cbn. destruct (Nat.eq_dec i x); [congruence|]. lia.
      * intros pre x post E. destruct pre as [|y pre]; cbn in E; injection E as <- E.
        -- subst post. rewrite A2.
           ++ rewrite D1, app_nil_r, HM. rewrite <- app_assoc. reflexivity.
           ++ exact Ni.
           ++ exact H1.
           ++ rewrite count_occ_app. cbn. destruct (Nat.eq_dec i i); [|congruence]. apply (count_occ_not_In Nat.eq_dec) in Hil. lia.
        -- rewrite (B2 pre x post E). rewrite HM. f_equal. rewrite <- app_assoc. cbn [app]. apply map_ext. intros a. apply HH.
Qed.
Lemma mean_compat n ds p q : p == q -> mean_of_smallest n ds p -> mean_of_smallest n ds q.
Proof.
  intros E (near & far & H1 & H2 & H3 & H4 & H5). exists near, far. split; [exact H1|]. split; [exact H2|]. split; [exact H3|]. split; [rewrite <- E; exact H4|]. intros H. rewrite <- E. auto.
Qed.
Lemma msof_matches st i : allok st -> live st i -> matches_are st i (msof st i).
Proof.
  intros HA HL. destruct (live_cell L st i HL) as (c & Hc). destruct (att_of L D d st i c HA Hc) as (t & Ht & _). exists c, t. unfold L_Novelty.msof. rewrite Hc, Ht. auto.
Qed.
Lemma score_exact k rs st : ready d (dX D) (dy D) st -> rs <> [] -> NoDup rs -> Forall (unseen st) rs -> (forall i, In i rs -> ~ In i (arch st)) ->
  exists st', novelty NBasic TBasic k rs st = (Ok rs, st') /\
    forall i, In i rs -> exists s ds, novelty_is st' i (Fin s) /\
      Forall2 (fun j q => exists a b, matches_are st i a /\ matches_are st j b /\ distance_is a b q) (arch st ++ rs) ds /\
      mean_of_smallest (Nat.min k (length (arch st ++ rs) - 1)) ds s.
Proof.
  intros HR HN HD HU HDj. apply ready_iff in HR as [HO HAr]. pose proof (okheap_allok L D d st HO) as HA.
  assert (HL : Forall (live st) rs) by (revert HU; apply Forall_impl; intros i (c & Hc & _); eapply cell_live; eauto).
  destruct (novelty_score_total L D d HT HX NBasic TBasic k rs st HO HAr HL HN I) as (fl & st1 & st' & f & E1 & N1 & I1 & F1 & E2 & G1 & HO1 & H1 & E3 & S3 & F3 & N3).
  assert (fl = rs) by (apply F1; discriminate). subst fl. destruct (mark_exact rs (arch st) st HO HAr HD HU HDj) as (st1' & E2' & _ & B2). assert (st1' = st1) by congruence. subst st1'.
  exists st'. split; [exact E3|]. intros i Hi. destruct (in_split i rs Hi) as (pre & post & Er).
  specialize (B2 pre i post Er). set (s := scorev L NBasic TBasic k st1 (arch st ++ rs) i) in *.
  assert (Hl1 : live st1 i) by (apply has_live; apply Forall_app in H1 as [_ H1]; rewrite Forall_forall in H1; apply H1; exact Hi).
  assert (Hli : live st i) by (rewrite Forall_forall in HL; apply HL; exact Hi).
  assert (HLa : Forall (live st) (arch st ++ rs)) by (apply Forall_app; split; [revert HAr; apply Forall_impl; intros a; apply has_live|exact HL]).
  exists (0 + mean_nearest k (dsof st1 i)), (dsof st1 i). split; [apply novelty_is_iff; rewrite (scored_scof L _ _ _ _ S3 Hl1), (F3 i Hi); reflexivity|].
  assert (HF2 : Forall2 (fun j q => exists a b, matches_are st i a /\ matches_are st j b /\ distance_is a b q) (arch st ++ rs) (dsof st1 i)).
  { rewrite B2, Er, !map_app, <- app_assoc. rewrite Er in HLa. rewrite Forall_forall in HLa.
    assert (HP1 : forall l, incl l (arch st ++ pre ++ i :: post) -> Forall2 (fun j q => exists a b, matches_are st i a /\ matches_are st j b /\ distance_is a b q) l (map (hd st i) l)).
    { induction l as [|j l IHl]; intros HI; [constructor|]. cbn [map]. constructor; [|apply IHl; intros z Hz; apply HI; right; exact Hz].
      assert (Hlj : live st j) by (apply HLa, HI; left; reflexivity). exists (msof st i), (msof st j). split; [apply msof_matches; assumption|]. split; [apply msof_matches; assumption|].
      apply hdist_is; [rewrite !(msof_len L D d); auto|apply (msof_ne L D d HT HX); auto]. }
    apply Forall2_app; [apply HP1; intros z Hz; apply in_or_app; left; exact Hz|]. apply Forall2_app; [apply HP1; intros z Hz; apply in_or_app; right; apply in_or_app; left; exact Hz|].
    cbn [app]. constructor.
    - exists (msof st i), (msof st i). split; [apply msof_matches; assumption|]. split; [apply msof_matches; assumption|].
      destruct (hdist_is (msof st i) (msof st i)) as (D1 & D2 & D3); [reflexivity|apply (msof_ne L D d HT HX); auto|]. split; [exact D1|]. split; [exact D2|]. rewrite <- D3. rewrite (hdist_self _ D2). reflexivity.
    - replace (map (fun i0 => hd st i0 i) post) with (map (hd st i) post); [apply HP1; intros z Hz; apply in_or_app; right; apply in_or_app; right; right; exact Hz|].
      apply map_ext_in. intros a Ha. unfold L_Novelty.hd. apply hdist_sym. rewrite !(msof_len L D d); auto. apply HLa. apply in_or_app; right; apply in_or_app; right; right; exact Ha. }
  split; [exact HF2|]. eapply mean_compat; [|rewrite (Forall2_len _ _ _ HF2); apply mean_nearest_is]. lra.
Qed.
End Props.
