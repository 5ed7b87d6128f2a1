(* The share of the overlap and the probability to select a rule. *)
From Coq Require Import Lia Lqa Qminmax Qfield Permutation.
From Verif Require Import PyNum PyList PyMon PyRng PyStat L_Num L_List M_Matching S_Matching L_Matching M_Rule M_Mixing M_Solution M_Aco S_Aco L_Aco L_AcoProps L_GenomeProps L_SafeFit L_GenomeOps L_Heap L_HeapProps M_Composition L_Composition L_Held L_Safe S_Solution L_GA S_GenomeOps S_Composition S_Overlap L_Overlap.

(* ----- boxes ----- *)
Lemma covers_low m : proper m -> covers m (map (lo (mt m)) (bnd m)).
Proof. unfold proper, covers. induction 1 as [|b l H HF IH]; cbn; constructor; auto. split; lra. Qed.
Lemma covers_high m : proper m -> covers m (map (hi (mt m)) (bnd m)).
Proof. unfold proper, covers. induction 1 as [|b l H HF IH]; cbn; constructor; auto. split; lra. Qed.
Lemma covers_proper m x : covers m x -> proper m.
Proof. unfold covers, proper. induction 1; constructor; auto. lra. Qed.
Lemma solid_proper m : solid m -> proper m.
Proof. unfold solid, proper. apply Forall_impl. intros; lra. Qed.
Lemma within_ends m n : proper m -> lies_within m n -> Forall2 (fun a b => lo (mt n) b <= lo (mt m) a /\ hi (mt m) a <= hi (mt n) b) (bnd m) (bnd n).
Proof.
  intros HP HW. pose proof (HW _ (covers_low m HP)) as H1. pose proof (HW _ (covers_high m HP)) as H2. clear - H1 H2. unfold covers in *.
  revert H1 H2. generalize (bnd n) as l'. induction (bnd m) as [|a l IH]; intros l' H1 H2; inversion H1; inversion H2; subst; [constructor|].
  match goal with H : _ :: _ = _ :: _ |- _ => inversion H; subst end. constructor; [split; lra|]. apply IH; auto.
Qed.
Lemma ends_within m n : Forall2 (fun a b => lo (mt n) b <= lo (mt m) a /\ hi (mt m) a <= hi (mt n) b) (bnd m) (bnd n) -> lies_within m n.
Proof.
  unfold lies_within, covers. intros H. induction H as [|a b l l' [H1 H2] HF IH]; intros x Hx; inversion Hx; subst; constructor; [split; lra|]. apply IH; auto.
Qed.
Lemma product_mono l l' : Forall2 (fun x y => 0 <= x <= y) l l' -> 0 <= product l <= product l'.
Proof. induction 1 as [|x y l l' H HF [IH1 IH2]]; cbn; [lra|]. split; nra. Qed.
Lemma product_pos l : Forall (fun x => 0 < x) l -> 0 < product l.
Proof. induction 1; cbn; [lra|]. nra. Qed.
Lemma product_tight l l' : Forall2 (fun x y => 0 <= x <= y /\ 0 < y) l l' -> product l == product l' -> Forall2 Qeq l l'.
Proof.
  induction 1 as [|x y l l' [H Hy] HF IH]; intros HE; [constructor|]. cbn [product] in HE.
  assert (HM : 0 <= product l <= product l') by (apply product_mono; revert HF; clear; induction 1; constructor; tauto).
  assert (HP : 0 < product l') by (apply product_pos; revert HF; clear; induction 1; constructor; tauto).
  assert (HX : x == y). { destruct (Qlt_le_dec x y) as [C|C]; [|lra]. exfalso. nra. }
  constructor; auto. apply IH. rewrite HX in HE. apply Qmult_inj_l with y; lra.
Qed.
Lemma within_volume m n : proper m -> lies_within m n -> 0 <= box_volume m <= box_volume n.
Proof.
  intros HP HW. pose proof (within_ends m n HP HW) as HE. unfold box_volume, lengths. apply product_mono.
  unfold proper in HP. revert HP. induction HE as [|a b l l' [H1 H2] HE IH]; intros HP; inversion HP; subst; cbn; constructor; [split; lra|]. auto.
Qed.
Lemma solid_volume m : solid m -> 0 < box_volume m.
Proof. intros H. apply product_pos. unfold lengths. apply Forall_map. revert H. apply Forall_impl. intros; lra. Qed.
Lemma same_volume m n : lies_within m n -> lies_within n m -> proper m -> proper n -> box_volume m == box_volume n.
Proof. intros H1 H2 P1 P2. pose proof (within_volume m n P1 H1). pose proof (within_volume n m P2 H2). lra. Qed.
Lemma full_within m n : solid m -> proper n -> lies_within n m -> box_volume n == box_volume m -> lies_within m n.
Proof.
  intros HS HP HW HV. apply ends_within. pose proof (within_ends n m HP HW) as HE.
  assert (HT : Forall2 Qeq (lengths n) (lengths m)).
  { apply product_tight; auto. unfold lengths. unfold solid in HS. unfold proper in HP. revert HS HP. clear - HE.
    induction HE as [|a b l l' [H1 H2] HE IH]; intros HS HP; inversion HS; inversion HP; subst; cbn; constructor; [repeat split; lra|auto]. }
  unfold lengths in HT. revert HT. induction HE as [|a b l l' [H1 H2] HE IH]; cbn; intros HT; inversion HT; subst; constructor; [split; lra|auto].
Qed.

(* ----- the intersection of two ordered boxes ----- *)
Definition meet (a b : matching) : matching :=
  mkMatching OrderedBound (map (fun p => (qmax (fst (fst p)) (fst (snd p)), qmin (snd (fst p)) (snd (snd p)))) (combine (bnd a) (bnd b))).
Lemma qmin_le_iff a b x : x <= qmin a b <-> x <= a /\ x <= b.
Proof. unfold qmin. destruct (qle_spec a b); split; intros; lra. Qed.
Lemma qmax_le_iff a b x : qmax a b <= x <-> a <= x /\ b <= x.
Proof. unfold qmax. destruct (qle_spec a b); split; intros; lra. Qed.
Lemma lo_ordered p : lo OrderedBound p = fst p. Proof. destruct p; reflexivity. Qed.
Lemma hi_ordered p : hi OrderedBound p = snd p. Proof. destruct p; reflexivity. Qed.
Lemma meet_common a b : mt a = OrderedBound -> mt b = OrderedBound -> same_dims a b -> common (meet a b) a b.
Proof.
  intros Ea Eb HD x. unfold covers, meet, same_dims in *. cbn [mt bnd]. rewrite Ea, Eb. revert HD x.
  generalize (bnd b) as lb. induction (bnd a) as [|p la IH]; intros [|q lb] HD x; cbn in HD; try lia.
  - cbn. split; [intros H; inversion H; subst; split; constructor|intros [H _]; exact H].
  - cbn [combine map]. split.
    + intros H. inversion H as [|? y ? ys [H1 H2] H3]; subst. rewrite lo_ordered in H1. rewrite hi_ordered in H2. cbn [fst snd] in H1, H2.
      apply qmax_le_iff in H1. apply qmin_le_iff in H2. destruct (proj1 (IH lb ltac:(lia) ys) H3) as [I1 I2].
      split; constructor; auto; rewrite lo_ordered, hi_ordered; tauto.
    + intros [H H']. inversion H as [|? y ? ys [H1 H2] H3]; subst. inversion H' as [|? y' ? ys' [H1' H2'] H3']; subst.
      rewrite lo_ordered in *. rewrite hi_ordered in *. constructor; [rewrite lo_ordered, hi_ordered; cbn [fst snd]; rewrite qmax_le_iff, qmin_le_iff; tauto|].
      apply IH; auto. 
Qed.
Lemma meet_test a b : mt a = OrderedBound -> mt b = OrderedBound -> solid a -> solid b -> same_dims a b ->
  forallb (fun p => qle (fst (fst p)) (snd (snd p)) && qle (fst (snd p)) (snd (fst p))) (combine (bnd a) (bnd b)) = true <-> proper (meet a b).
Proof.
  unfold solid, proper, meet, same_dims. cbn [mt bnd]. intros Ea Eb. rewrite Ea, Eb. generalize (bnd b) as lb.
  induction (bnd a) as [|p la IH]; intros [|q lb] Sa Sb HD; cbn in HD; try lia; cbn [combine map forallb]; [split; constructor|].
  inversion Sa as [|? ? Hp Sa']; inversion Sb as [|? ? Hq Sb']; subst. rewrite lo_ordered, hi_ordered in Hp, Hq.
  rewrite !andb_true_iff, !qle_iff. rewrite (IH lb Sa' Sb' ltac:(lia)). split.
  - intros [[H1 H2] H3]. cbn [fst snd] in H1, H2. constructor; auto. rewrite lo_ordered, hi_ordered. cbn [fst snd]. rewrite qmax_le_iff, !qmin_le_iff. repeat split; lra.
  - intros H. inversion H as [|? ? H1 H2]; subst. rewrite lo_ordered, hi_ordered in H1. cbn [fst snd] in H1. rewrite qmax_le_iff, !qmin_le_iff in H1. destruct H1 as [[H1a H1b] [H1c H1d]]. cbn [fst snd]. repeat split; [lra|lra|auto].
Qed.
Lemma meet_volume a b : qprod (map (fun p => qmin (snd (fst p)) (snd (snd p)) - qmax (fst (fst p)) (fst (snd p))) (combine (bnd a) (bnd b))) == box_volume (meet a b).
Proof.
  unfold box_volume, lengths, meet. cbn [mt bnd]. induction (combine (bnd a) (bnd b)) as [|p l IH]; cbn; [reflexivity|]. rewrite IH. reflexivity.
Qed.

(* ----- the share ----- *)
Lemma share_spec {L} (a b : rule L) : ordered a -> ordered b -> same_dims (cond a) (cond b) ->
  exists s, share a b s /\ 0 <= s <= 1 /\ (s == 1 <-> lies_within (cond a) (cond b) \/ lies_within (cond b) (cond a)) /\
    (forall m, proper m -> common m (cond a) (cond b) -> s * Qmin (box_volume (cond a)) (box_volume (cond b)) == box_volume m) /\
    ((forall x, ~ (covers (cond a) x /\ covers (cond b) x)) -> s == 0).
Proof.
  intros [Ea Sa] [Eb Sb] HD. pose proof (meet_common _ _ Ea Eb HD) as HC. pose proof (meet_test _ _ Ea Eb Sa Sb HD) as HT.
  pose proof (solid_volume _ Sa) as Va. pose proof (solid_volume _ Sb) as Vb.
  pose proof (volume_ordered _ Ea) as Wa. pose proof (volume_ordered _ Eb) as Wb. fold (box_volume (cond a)) in Wa. fold (box_volume (cond b)) in Wb.
  unfold share, bounds_overlap. destruct (forallb _ _) eqn:EF.
  - assert (HP : proper (meet (cond a) (cond b))) by (apply HT; auto).
    assert (W1 : lies_within (meet (cond a) (cond b)) (cond a)) by (intros x Hx; apply HC in Hx; tauto).
    assert (W2 : lies_within (meet (cond a) (cond b)) (cond b)) by (intros x Hx; apply HC in Hx; tauto).
    pose proof (within_volume _ _ HP W1) as [V0 V1]. pose proof (within_volume _ _ HP W2) as [_ V2].
    unfold rule_volume.
    assert (HM : qmin (volume (cond a)) (volume (cond b)) == Qmin (box_volume (cond a)) (box_volume (cond b))) by (rewrite qmin_Qmin, Wa, Wb; reflexivity).
    set (mn := Qmin (box_volume (cond a)) (box_volume (cond b))) in *.
    assert (Hmn : 0 < mn) by (unfold mn; apply Q.min_glb_lt; auto).
    assert (Hle : box_volume (meet (cond a) (cond b)) <= mn) by (unfold mn; apply Q.min_glb; auto).
    cbn [ndiv]. destruct (qeq_spec (qmin (volume (cond a)) (volume (cond b))) 0) as [C|_]; [rewrite HM in C; lra|]. cbn [nneg nadd].
    exists (box_volume (meet (cond a) (cond b)) / mn).
    assert (HS : qprod (map (fun p => qmin (snd (fst p)) (snd (snd p)) - qmax (fst (fst p)) (fst (snd p))) (combine (bnd (cond a)) (bnd (cond b)))) / qmin (volume (cond a)) (volume (cond b)) == box_volume (meet (cond a) (cond b)) / mn).
    { rewrite HM, meet_volume. reflexivity. }
    assert (HR : box_volume (meet (cond a) (cond b)) / mn * mn == box_volume (meet (cond a) (cond b))) by (field; lra).
    set (s := box_volume (meet (cond a) (cond b)) / mn) in *.
    split; [eexists _, _; split; [reflexivity|]; rewrite HS; split; lra|]. split; [split; [unfold s; apply Qle_shift_div_l; lra|unfold s; apply Qle_shift_div_r; lra]|].
    split; [|split].
    + split.
      * intros H1. assert (HV : box_volume (meet (cond a) (cond b)) == mn) by (rewrite <- HR, H1; ring).
        destruct (Q.min_spec (box_volume (cond a)) (box_volume (cond b))) as [[_ HX]|[_ HX]]; fold mn in HX.
        -- left. intros x Hx. apply HC. apply (full_within (cond a)); auto. rewrite HV. exact HX.
        -- right. intros x Hx. apply HC. apply (full_within (cond b)); auto. rewrite HV. exact HX.
      * intros HW. assert (HV : box_volume (meet (cond a) (cond b)) == mn).
        { apply Qle_antisym; auto. destruct HW as [HW|HW].
          - assert (H : box_volume (cond a) == box_volume (meet (cond a) (cond b))) by (apply same_volume; auto; [intros x Hx; apply HC; split; auto|apply solid_proper; auto]). unfold mn. rewrite <- H. apply Q.le_min_l.
          - assert (H : box_volume (cond b) == box_volume (meet (cond a) (cond b))) by (apply same_volume; auto; [intros x Hx; apply HC; split; auto|apply solid_proper; auto]). unfold mn. rewrite <- H. apply Q.le_min_r. }
        unfold s. rewrite HV. field. lra.
    + intros m Hm HCm. rewrite HR. apply same_volume; auto; intros x Hx; [apply HCm, HC|apply HC, HCm]; auto.
    + intros HN. destruct (HN (map (lo (mt (meet (cond a) (cond b)))) (bnd (meet (cond a) (cond b))))). apply HC. apply covers_low; auto.
  - assert (HP : ~ proper (meet (cond a) (cond b))) by (intros H; apply HT in H; congruence).
    assert (HN : forall x, ~ (covers (cond a) x /\ covers (cond b) x)) by (intros x Hx; apply HP; apply HC in Hx; eapply covers_proper; eauto).
    exists 0. split; [eexists _, _; split; [reflexivity|split; lra]|]. split; [lra|]. split; [|split].
    + split; [intros H; lra|]. intros [H|H]; exfalso.
      * apply (HN (map (lo (mt (cond a))) (bnd (cond a)))). split; [|apply H]; apply covers_low, solid_proper; auto.
      * apply (HN (map (lo (mt (cond b))) (bnd (cond b)))). split; [apply H|]; apply covers_low, solid_proper; auto.
    + intros m Hm HCm. exfalso. apply (HN (map (lo (mt m)) (bnd m))). apply HCm. apply covers_low; auto.
    + intros _. reflexivity.
Qed.
Lemma share_unique {L} (a b : rule L) s t : share a b s -> share a b t -> s == t.
Proof. intros (x & y & H & H1 & _) (x' & y' & H' & H1' & _). rewrite H in H'. inversion H'; subst. lra. Qed.
Lemma share_sym {L} (a b : rule L) s : ordered a -> ordered b -> same_dims (cond a) (cond b) -> share a b s -> share b a s.
Proof.
  intros Ha Hb HD HS. destruct (share_spec a b Ha Hb HD) as (s1 & H1 & _ & _ & V1 & Z1).
  destruct (share_spec b a Hb Ha (eq_sym HD)) as (s2 & H2 & _ & _ & V2 & Z2).
  assert (HE : s2 == s). 
  { rewrite (share_unique a b s s1 HS H1). destruct Ha as [Ea Sa], Hb as [Eb Sb].
    pose proof (meet_common _ _ Ea Eb HD) as HC. pose proof (meet_test _ _ Ea Eb Sa Sb HD) as HT.
    pose proof (solid_volume _ Sa) as Va. pose proof (solid_volume _ Sb) as Vb.
    destruct (forallb (fun p => qle (fst (fst p)) (snd (snd p)) && qle (fst (snd p)) (snd (fst p))) (combine (bnd (cond a)) (bnd (cond b)))) eqn:EF.
    - pose proof (proj1 HT eq_refl) as HP. pose proof (V1 _ HP HC) as E1.
      pose proof (V2 _ HP ltac:(intros x; rewrite (HC x); tauto)) as E2. rewrite Q.min_comm in E2.
      assert (Hmn : 0 < Qmin (box_volume (cond a)) (box_volume (cond b))) by (apply Q.min_glb_lt; auto).
      apply Qmult_inj_r with (Qmin (box_volume (cond a)) (box_volume (cond b))); [lra|]. rewrite E1, E2. reflexivity.
    - assert (HN : forall x, ~ (covers (cond a) x /\ covers (cond b) x)).
      { intros x Hx. apply HC in Hx. apply covers_proper in Hx. apply HT in Hx. congruence. }
      rewrite Z1 by auto. apply Z2. intros x [Hx Hx']. apply (HN x). auto. }
  destruct H2 as (x & y & H & X1 & X2). exists x, y. split; auto. split; lra.
Qed.

(* ----- the probability ----- *)
Lemma considered_eq (partial : bool) (route : list nat) : route <> [] ->
  match rev route with [] => [] | l :: _ => if partial then route else [l] end = looked_at partial route.
Proof.
  intros H. destruct (exists_last H) as (l & x & ->). rewrite rev_app_distr. cbn [rev app]. unfold looked_at. rewrite last_last. reflexivity.
Qed.
Lemma entries_ok p n j : square_for positive n p -> (j < n)%nat -> forall l, Forall (fun i => (i < n)%nat) l ->
  exists taus, rmap (fun i => entry p i j) l = Ok taus /\ length taus = length l /\ Forall (fun t => positive (fst t) /\ positive (snd t)) taus.
Proof.
  intros [HL HP] Hj l Hl. induction Hl as [|i l Hi Hl (ts & IH1 & IH2 & IH3)]; [exists []; auto|]. cbn [rmap]. unfold entry at 1.
  destruct (nth_error p i) as [row|] eqn:Ei; [|apply nth_error_None in Ei; lia]. cbn [of_option rbind].
  rewrite Forall_forall in HP. destruct (HP row (nth_error_In _ _ Ei)) as [HLr HPr].
  destruct (nth_error row j) as [t|] eqn:Et; [|apply nth_error_None in Et; lia]. cbn [of_option rbind]. rewrite IH1. cbn [rbind].
  exists (t :: ts). split; auto. split; [cbn; lia|]. constructor; auto. rewrite Forall_forall in HPr. apply HPr. eapply nth_error_In; eauto.
Qed.
Lemma nsum_positive l : Forall positive l -> l <> [] -> positive (nsum l).
Proof.
  intros Hl. unfold nsum. destruct Hl as [|x l (q & -> & Hq) Hl]; [congruence|]. intros _. cbn [fold_left nadd].
  assert (Hq' : 0 < 0 + q) by lra. revert Hq'. generalize (0 + q) as acc. induction Hl as [|y l (r & -> & Hr) _ IH]; intros acc Hacc; cbn [fold_left]; [exists acc; auto|].
  cbn [nadd]. apply IH. lra.
Qed.
Lemma pair_sum_positive taus : Forall (fun t => positive (fst t) /\ positive (snd t)) taus -> taus <> [] ->
  exists t0 t1, pair_sum taus = (Fin t0, Fin t1) /\ 0 < t0 /\ 0 < t1.
Proof.
  intros H HN. unfold pair_sum.
  destruct (nsum_positive (map fst taus)) as (t0 & -> & P0); [apply Forall_map; revert H; apply Forall_impl; tauto|destruct taus; [congruence|discriminate]|].
  destruct (nsum_positive (map snd taus)) as (t1 & -> & P1); [apply Forall_map; revert H; apply Forall_impl; tauto|destruct taus; [congruence|discriminate]|].
  eauto 10.
Qed.
Definition mean_q (l : list Q) : Q := qsum l / qofnat (length l).
Lemma qofnat_pos n : (n <> 0)%nat -> 0 < qofnat n.
Proof. intros H. unfold qofnat. change 0 with (inject_Z 0). rewrite <- Zlt_Qlt. lia. Qed.
Lemma nmean_fin qs : qs <> [] -> exists m, nmean (map Fin qs) = Fin m /\ m == mean_q qs.
Proof.
  intros HN. unfold nmean, nsum, nlen. destruct (L_GenomeProps.nsum_fin qs 0) as (t & -> & Ht). rewrite map_length.
  assert (HP : 0 < qofnat (length qs)) by (apply qofnat_pos; destruct qs; [congruence|discriminate]).
  cbn [ndiv]. destruct (qeq_spec (qofnat (length qs)) 0); [lra|]. eexists. split; [reflexivity|]. unfold mean_q. rewrite Ht. field. lra.
Qed.
Lemma sum_of (f : Q -> Q) (c : Q) (k : Q) qs ss : (forall x, f x == c + k * x) -> Forall2 (fun q s => q == f s) qs ss -> qsum qs == c * qofnat (length ss) + k * qsum ss.
Proof.
  intros Hf. induction 1 as [|q s qs ss H HF IH]; cbn [length].
  - unfold qofnat. cbn. ring.
  - unfold qsum in *. cbn [fold_right]. rewrite IH, H, Hf. unfold qofnat. rewrite Nat2Z.inj_succ, <- Z.add_1_r, inject_Z_plus. ring.
Qed.
Lemma overlaps_ok {L} (pool : list (rule L)) rj la ss : Forall2 (fun i s => exists ri, nth_error pool i = Some ri /\ share ri rj s) la ss -> la <> [] ->
  exists ovs x y, rmap (fun i => let? ri := of_option IndexError (nth_error pool i) in Ok (bounds_overlap ri rj)) la = Ok ovs /\
    pair_mean ovs = (Fin x, Fin y) /\ x == 1 + mean_q ss /\ y == 1 - mean_q ss.
Proof.
  intros HF HN.
  assert (HO : exists xs ys, rmap (fun i => let? ri := of_option IndexError (nth_error pool i) in Ok (bounds_overlap ri rj)) la = Ok (combine (map Fin xs) (map Fin ys)) /\
    Forall2 (fun q s => q == 1 + s) xs ss /\ Forall2 (fun q s => q == 1 - s) ys ss).
  { clear HN. induction HF as [|i s la ss (ri & Hi & x & y & Hb & Hx & Hy) HF (xs & ys & IH1 & IH2 & IH3)]; [exists [], []; cbn; auto|].
    cbn [rmap]. rewrite Hi. cbn [of_option rbind]. rewrite Hb, IH1. cbn [rbind]. exists (x :: xs), (y :: ys). split; auto. }
  destruct HO as (xs & ys & HR & HX & HY). exists (combine (map Fin xs) (map Fin ys)).
  pose proof (Forall2_length _ _ _ HF) as L0. pose proof (Forall2_length _ _ _ HX) as L1. pose proof (Forall2_length _ _ _ HY) as L2.
  assert (Hm : map fst (combine (map Fin xs) (map Fin ys)) = map Fin xs /\ map snd (combine (map Fin xs) (map Fin ys)) = map Fin ys).
  { assert (HL : length xs = length ys) by lia. clear - HL. revert ys HL. induction xs as [|x xs IH]; intros [|y ys] HL; cbn in *; try lia; auto. destruct (IH ys ltac:(lia)) as [-> ->]. auto. }
  unfold pair_mean. destruct Hm as [-> ->].
  assert (HNs : ss <> []) by (destruct la, ss; cbn in L0; congruence).
  destruct (nmean_fin xs) as (x & Hx & Ex); [destruct xs, ss; cbn in L1; congruence|].
  destruct (nmean_fin ys) as (y & Hy & Ey); [destruct ys, ss; cbn in L2; congruence|].
  assert (HP : 0 < qofnat (length ss)) by (apply qofnat_pos; destruct ss; [congruence|discriminate]).
  exists x, y. split; auto. rewrite Hx, Hy. split; auto. rewrite Ex, Ey. unfold mean_q. rewrite L1, L2.
  rewrite (sum_of (fun s => 1 + s) 1 1 xs ss) by (auto; intros; ring). rewrite (sum_of (fun s => 1 - s) 1 (-(1)) ys ss) by (auto; intros; ring).
  split; field; lra.
Qed.
Lemma prob_value A b partial {L} p (pool : list (rule L)) eta route j rj f0 f1 ss : route <> [] -> nth_error pool j = Some rj ->
  nth_error eta j = Some (Fin f0, Fin f1) -> square_for positive (length pool) p ->
  Forall2 (fun i s => exists ri, nth_error pool i = Some ri /\ share ri rj s) (looked_at partial route) ss ->
  exists taus t0 t1 x y, rmap (fun i => entry p i j) (looked_at partial route ++ [j]) = Ok taus /\ pair_sum taus = (Fin t0, Fin t1) /\ 0 < t0 /\ 0 < t1 /\
    x == 1 + mean_q ss /\ y == 1 - mean_q ss /\
    com_prob A b partial p pool eta route j = Ok (normalized (weigh A b (Fin t0, Fin t1) (m_sqrt A (Fin (f0 * x)), m_sqrt A (Fin (f1 * y))))).
Proof.
  intros HN Hj He HS HF. unfold com_prob. rewrite Hj, He. cbn [of_option rbind]. rewrite (considered_eq partial route HN).
  assert (HLa : looked_at partial route <> []) by (unfold looked_at; destruct partial; [auto|discriminate]).
  destruct (overlaps_ok pool rj _ ss HF HLa) as (ovs & x & y & -> & HM & Hx & Hy). cbn [rbind].
  assert (Hjn : (j < length pool)%nat) by (apply nth_error_Some; congruence).
  destruct (entries_ok p (length pool) j HS Hjn (looked_at partial route ++ [j])) as (taus & HT & HLt & HP).
  { apply Forall_app. split; [|constructor; auto]. clear - HF. induction HF as [|i s la ss (ri & Hi & _) HF IH]; constructor; auto. apply nth_error_Some. congruence. }
  destruct route as [|r0 route]; [congruence|]. rewrite HT. cbn [rbind fst snd].
  destruct (pair_sum_positive taus HP) as (t0 & t1 & HPS & P0 & P1); [destruct taus; [rewrite app_length in HLt; cbn in HLt; lia|discriminate]|].
  rewrite HM, HPS. cbn [fst snd nmul]. exists taus, t0, t1, x, y. auto 10.
Qed.
Lemma sum_bound ss : Forall (fun s => 0 <= s <= 1) ss -> 0 <= qsum ss <= qofnat (length ss) /\ (qsum ss == qofnat (length ss) <-> Forall (fun s => s == 1) ss).
Proof.
  induction 1 as [|s ss H HF [IH1 IH2]]; cbn [length].
  - split; [split; apply Qle_refl|]. split; [constructor|reflexivity].
  - unfold qsum in *. cbn [fold_right]. assert (HQ : qofnat (S (length ss)) == qofnat (length ss) + 1) by (unfold qofnat; rewrite Nat2Z.inj_succ, <- Z.add_1_r, inject_Z_plus; reflexivity).
    rewrite HQ. split; [lra|]. split.
    + intros HE. constructor; [lra|]. apply IH2. lra.
    + intros HA. inversion HA; subst. apply IH2 in H3. lra.
Qed.
Lemma mean_bound ss : ss <> [] -> Forall (fun s => 0 <= s <= 1) ss -> 0 <= mean_q ss <= 1 /\ (mean_q ss == 1 <-> Forall (fun s => s == 1) ss).
Proof.
  intros HN HF. destruct (sum_bound ss HF) as [H1 H2]. assert (HP : 0 < qofnat (length ss)) by (apply qofnat_pos; destruct ss; [congruence|discriminate]).
  unfold mean_q. split; [split; [apply Qle_shift_div_l; lra|apply Qle_shift_div_r; lra]|]. rewrite <- H2. split; intros H.
  - assert (HR : qsum ss / qofnat (length ss) * qofnat (length ss) == qsum ss) by (field; lra). rewrite H in HR. lra.
  - rewrite H. field. lra.
Qed.
Lemma shares_exist {L} (pool : list (rule L)) rj l : boxes pool -> In rj pool -> Forall (fun i => (i < length pool)%nat) l ->
  exists ss, Forall2 (fun i s => exists ri, nth_error pool i = Some ri /\ share ri rj s) l ss /\ Forall (fun s => 0 <= s <= 1) ss /\
    Forall2 (fun i s => forall ri, nth_error pool i = Some ri -> (s == 1 <-> lies_within (cond ri) (cond rj) \/ lies_within (cond rj) (cond ri))) l ss.
Proof.
  intros [HB HD] Hj. induction 1 as [|i l Hi Hl (ss & IH1 & IH2 & IH3)]; [exists []; auto|].
  destruct (nth_error pool i) as [ri|] eqn:Ei; [|apply nth_error_None in Ei; lia]. pose proof (nth_error_In _ _ Ei) as Ii. rewrite Forall_forall in HB.
  destruct (share_spec ri rj (HB _ Ii) (HB _ Hj) (HD _ _ Ii Hj)) as (s & H1 & H2 & H3 & _). exists (s :: ss).
  split; [constructor; eauto|]. split; [constructor; auto|]. constructor; auto. intros r Hr. assert (r = ri) by congruence. subst r. exact H3.
Qed.
Lemma heuristics {L} (pool : list (rule L)) fs j f : measured pool fs -> varied fs -> nth_error fs j = Some f ->
  exists eta e0 e1, relative_fitness pool = Ok eta /\ nth_error eta j = Some (Fin e0, Fin e1) /\ (1#2) <= e0 /\ 1 <= e1.
Proof.
  intros HM HV Hf. assert (HN : pool <> []). { destruct HV as (g & _ & H & _). destruct pool; [|discriminate]. inversion HM; subst. destruct H. }
  destruct (relative_spec pool fs HM HN) as (lo & hi & _ & _ & HF & HR). pose proof (varied_lt fs lo hi HV HF) as HLt.
  assert (Hf' : lo <= f <= hi) by (rewrite Forall_forall in HF; apply HF; eapply nth_error_In; eauto).
  destruct (heuristic_range lo hi f HLt Hf') as (e0 & e1 & He & [He0 _] & [He1 _]). cbv zeta in He.
  eexists _, e0, e1. split; [exact HR|]. rewrite nth_error_map, Hf. cbn [option_map]. rewrite He. auto.
Qed.
(* the weights of one rule *)
Lemma weights_value A b t0 t1 x y : root_ok A b -> 0 < t0 -> 0 < t1 -> 0 < x -> 0 <= y ->
  exists w0 w1, normalized (weigh A b (Fin t0, Fin t1) (m_sqrt A (Fin x), m_sqrt A (Fin y))) = Fin (w1 / (w0 + w1)) /\ 0 < w0 /\ 0 <= w1 /\ (w1 == 0 <-> y == 0).
Proof.
  intros HR H0 H1 Hx Hy. unfold weigh. cbn [fst snd].
  destruct (po_pos A b HR t0 (b_alpha b) H0) as (a0 & -> & A0). destruct (po_pos A b HR t1 (b_alpha b) H1) as (a1 & -> & A1).
  destruct (ro_pos A b HR x Hx) as (h0 & -> & B0). destruct (po_pos A b HR h0 (b_beta b) B0) as (c0 & -> & C0).
  assert (HY : exists h1, m_sqrt A (Fin y) = Fin h1 /\ 0 <= h1 /\ (h1 == 0 <-> y == 0)).
  { destruct (Qlt_le_dec 0 y) as [C|C].
    - destruct (ro_pos A b HR y C) as (h1 & E & P). exists h1. split; auto. split; [lra|]. split; intros; lra.
    - destruct (ro_zero A b HR y) as (h1 & E & P); [lra|]. exists h1. split; auto. split; [lra|]. split; intros; lra. }
  destruct HY as (h1 & -> & B1 & Z1).
  assert (HC : exists c1, m_pow A (Fin h1) (b_beta b) = Fin c1 /\ 0 <= c1 /\ (c1 == 0 <-> h1 == 0)).
  { destruct (Qlt_le_dec 0 h1) as [C|C].
    - destruct (po_pos A b HR h1 (b_beta b) C) as (c1 & E & P). exists c1. split; auto. split; [lra|]. split; intros; lra.
    - destruct (po_zero A b HR h1) as (c1 & E & P); [lra|]. exists c1. split; auto. split; [lra|]. split; intros; lra. }
  destruct HC as (c1 & -> & C1 & Z2). cbn [nmul]. unfold normalized. cbn [fst snd nadd ndiv].
  destruct (qeq_spec (a0 * c0 + a1 * c1) 0) as [C|_]; [exfalso; nra|]. exists (a0 * c0), (a1 * c1). split; auto. split; [nra|]. split; [nra|].
  rewrite <- Z1, <- Z2. split; [intros H; destruct (Qmult_integral _ _ H); lra|intros ->; ring].
Qed.
Lemma complete_next {L} A b partial (pool : list (rule L)) fs p j route : root_ok A b -> measured pool fs -> varied fs -> boxes pool ->
  square_for positive (length pool) p -> (j < length pool)%nat -> route <> [] -> Forall (fun i => (i < length pool)%nat) route ->
  exists eta q, relative_fitness pool = Ok eta /\ com_prob A b partial p pool eta route j = Ok (Fin q) /\ 0 <= q < 1 /\
    (q == 0 <-> Forall (nested pool j) (looked_at partial route)).
Proof.
  intros HR HM HV HB HS Hj HN HRt. destruct (nth_error pool j) as [rj|] eqn:Ej; [|apply nth_error_None in Ej; lia].
  pose proof (Forall2_length _ _ _ HM) as HLf. destruct (nth_error fs j) as [f|] eqn:Ef; [|apply nth_error_None in Ef; lia].
  destruct (heuristics pool fs j f HM HV Ef) as (eta & e0 & e1 & He & Hn & He0 & He1).
  assert (HLa : looked_at partial route <> []) by (unfold looked_at; destruct partial; [auto|discriminate]).
  assert (HLb : Forall (fun i => (i < length pool)%nat) (looked_at partial route)).
  { unfold looked_at. destruct partial; auto. constructor; auto. destruct (exists_last HN) as (l & x & ->). rewrite last_last. apply Forall_app in HRt. destruct HRt as [_ HX]. inversion HX; auto. }
  destruct (shares_exist pool rj _ HB (nth_error_In _ _ Ej) HLb) as (ss & S1 & S2 & S3).
  destruct (prob_value A b partial p pool eta route j rj e0 e1 ss HN Ej Hn HS S1) as (taus & t0 & t1 & x & y & _ & _ & P0 & P1 & Hx & Hy & HP).
  assert (HNs : ss <> []) by (destruct (looked_at partial route); [congruence|inversion S1; subst; discriminate]).
  destruct (mean_bound ss HNs S2) as [MB ME].
  destruct (weights_value A b t0 t1 (e0 * x) (e1 * y) HR P0 P1) as (w0 & w1 & HW & W0 & W1 & WZ); [nra|nra|].
  exists eta, (w1 / (w0 + w1)). split; auto. split; [rewrite HP, HW; reflexivity|]. split; [split; [apply Qle_shift_div_l; lra|apply Qlt_shift_div_r; lra]|].
  assert (HZ : w1 / (w0 + w1) == 0 <-> w1 == 0).
  { split; intros H; [|rewrite H; field; lra]. assert (HX : w1 / (w0 + w1) * (w0 + w1) == w1) by (field; lra). rewrite H in HX. lra. }
  rewrite HZ, WZ.
  assert (HY : e1 * y == 0 <-> mean_q ss == 1). { split; intros H; [destruct (Qmult_integral _ _ H); lra|]. assert (y == 0) as -> by lra. ring. }
  rewrite HY, ME. clear - S3 Ej HLb. induction S3 as [|i s la ss H S3 IH]; [split; constructor|]. inversion HLb as [|? ? Hi HLc]; subst. specialize (IH HLc).
  destruct (nth_error pool i) as [ri|] eqn:Ei; [|apply nth_error_None in Ei; lia]. specialize (H ri eq_refl). split.
  - intros HA. inversion HA; subst. constructor; [|apply IH; auto]. exists ri, rj. split; auto. split; auto. apply H; auto.
  - intros HA. inversion HA as [|? ? (ri' & rj' & Hi' & Hj' & HW) HA']; subst. constructor; [|apply IH; auto]. apply H. assert (ri' = ri) by congruence. assert (rj' = rj) by congruence. subst. auto.
Qed.

(* ----- more overlap, smaller probability ----- *)
Lemma root_val A b x : root_ok A b -> 0 <= x -> exists h, m_sqrt A (Fin x) = Fin h /\ 0 <= h /\ (0 < x -> 0 < h).
Proof.
  intros HR Hx. destruct (Qlt_le_dec 0 x) as [C|C].
  - destruct (ro_pos A b HR x C) as (h & E & P). exists h. split; auto. split; [lra|auto].
  - destruct (ro_zero A b HR x) as (h & E & P); [lra|]. exists h. split; auto. split; [lra|intros; lra].
Qed.
Lemma pow_val A b x : root_ok A b -> 0 <= x -> exists h, m_pow A (Fin x) (b_beta b) = Fin h /\ 0 <= h /\ (0 < x -> 0 < h).
Proof.
  intros HR Hx. destruct (Qlt_le_dec 0 x) as [C|C].
  - destruct (po_pos A b HR x (b_beta b) C) as (h & E & P). exists h. split; auto. split; [lra|auto].
  - destruct (po_zero A b HR x) as (h & E & P); [lra|]. exists h. split; auto. split; [lra|intros; lra].
Qed.
Lemma weights_mono A b t0 t1 x y x' y' : root_ok A b -> 0 < t0 -> 0 < t1 -> 0 < x' <= x -> 0 <= y <= y' ->
  exists q q', normalized (weigh A b (Fin t0, Fin t1) (m_sqrt A (Fin x), m_sqrt A (Fin y))) = Fin q /\
    normalized (weigh A b (Fin t0, Fin t1) (m_sqrt A (Fin x'), m_sqrt A (Fin y'))) = Fin q' /\ q <= q'.
Proof.
  intros HR H0 H1 Hx Hy. unfold weigh. cbn [fst snd].
  destruct (po_pos A b HR t0 (b_alpha b) H0) as (a0 & -> & A0). destruct (po_pos A b HR t1 (b_alpha b) H1) as (a1 & -> & A1).
  destruct (root_val A b x HR) as (h & Eh & Ph & Sh); [lra|]. destruct (root_val A b x' HR) as (h' & Eh' & Ph' & Sh'); [lra|].
  destruct (root_val A b y HR) as (k & Ek & Pk & _); [lra|]. destruct (root_val A b y' HR) as (k' & Ek' & Pk' & _); [lra|].
  assert (M1 : h' <= h) by (apply (ro_mono A b HR x' x); auto; lra). assert (M2 : k <= k') by (apply (ro_mono A b HR y y'); auto; lra).
  rewrite Eh, Eh', Ek, Ek'.
  destruct (pow_val A b h HR Ph) as (c & Ec & Pc & Sc). destruct (pow_val A b h' HR Ph') as (c' & Ec' & Pc' & Sc').
  destruct (pow_val A b k HR Pk) as (d & Ed & Pd & _). destruct (pow_val A b k' HR Pk') as (d' & Ed' & Pd' & _).
  assert (M3 : c' <= c) by (apply (po_mono A b HR h' h); auto). assert (M4 : d <= d') by (apply (po_mono A b HR k k'); auto).
  rewrite Ec, Ec', Ed, Ed'. cbn [nmul]. unfold normalized. cbn [fst snd nadd ndiv].
  assert (C0 : 0 < c) by (apply Sc, Sh; lra). assert (C0' : 0 < c') by (apply Sc', Sh'; lra).
  assert (X1 : 0 < a0 * c) by nra. assert (X2 : 0 < a0 * c') by nra. assert (X3 : 0 <= a1 * d) by nra. assert (X4 : 0 <= a1 * d') by nra.
  assert (X5 : a0 * c' <= a0 * c) by nra. assert (X6 : a1 * d <= a1 * d') by nra.
  destruct (qeq_spec (a0 * c + a1 * d) 0) as [C|_]; [lra|]. destruct (qeq_spec (a0 * c' + a1 * d') 0) as [C|_]; [lra|].
  eexists _, _. split; [reflexivity|]. split; [reflexivity|]. revert X1 X2 X3 X4 X5 X6. generalize (a0 * c) (a0 * c') (a1 * d) (a1 * d'). intros u u' v v' X1 X2 X3 X4 X5 X6.
  apply Qle_shift_div_l; [lra|]. setoid_replace (v / (u + v) * (u' + v')) with ((v * (u' + v')) / (u + v)) by (field; lra).
  apply Qle_shift_div_r; [lra|]. assert (v * u' <= v' * u) by (apply Qle_trans with (v * u); [nra|nra]). nra.
Qed.
Lemma heuristics_all {L} (pool : list (rule L)) fs : measured pool fs -> varied fs ->
  exists eta (lo hi : Q), relative_fitness pool = Ok eta /\ lo < hi /\ forall j f, nth_error fs j = Some f ->
    exists e0 e1, nth_error eta j = Some (Fin e0, Fin e1) /\ e0 == 1 - (f - lo) / (hi - lo) * (1#2) /\ e1 == 1 + (f - lo) / (hi - lo) * (1#2) /\ (1#2) <= e0 /\ 1 <= e1.
Proof.
  intros HM HV. assert (HN : pool <> []). { destruct HV as (g & _ & H & _). destruct pool; [|discriminate]. inversion HM; subst. destruct H. }
  destruct (relative_spec pool fs HM HN) as (lo & hi & _ & _ & HF & HR). pose proof (varied_lt fs lo hi HV HF) as HLt.
  eexists _, lo, hi. split; [exact HR|]. split; auto. intros j f Hf.
  assert (Hf' : lo <= f <= hi) by (rewrite Forall_forall in HF; apply HF; eapply nth_error_In; eauto).
  destruct (heuristic_range lo hi f HLt Hf') as (e0 & e1 & He & [He0 _] & [He1 _]). cbv zeta in He.
  exists e0, e1. rewrite nth_error_map, Hf. cbn [option_map]. split; [rewrite He; reflexivity|].
  cbn [ndiv] in He. destruct (qeq_spec (hi - lo) 0); [lra|]. cbn [nmul nneg nadd] in He. inversion He; subst. split; [ring|]. split; [ring|]. auto.
Qed.
Lemma mean_mono ss ts : Forall2 (fun s t => t <= s) ss ts -> mean_q ts <= mean_q ss.
Proof.
  intros H. unfold mean_q. rewrite <- (Forall2_length _ _ _ H). assert (HS : qsum ts <= qsum ss) by (unfold qsum; induction H; cbn [fold_right]; lra).
  destruct ss as [|s ss]; [inversion H; subst; apply Qle_refl|]. assert (0 < qofnat (length (s :: ss))) by (apply qofnat_pos; discriminate).
  apply Qle_shift_div_l; auto. setoid_replace (qsum ts / qofnat (length (s :: ss)) * qofnat (length (s :: ss))) with (qsum ts) by (field; lra). exact HS.
Qed.
Lemma same_entries p j k l : (forall i, In i l -> cell p i j = cell p i k) -> rmap (fun i => entry p i j) l = rmap (fun i => entry p i k) l.
Proof.
  induction l as [|i l IH]; intros H; auto. cbn [rmap]. rewrite IH by (intros; apply H; right; auto).
  assert (HE : entry p i j = entry p i k). { pose proof (H i (or_introl eq_refl)) as HC. unfold cell in HC. unfold entry. destruct (nth_error p i); cbn; auto. rewrite HC. reflexivity. }
  rewrite HE. reflexivity.
Qed.
Lemma rmap_app {T U} (f : T -> res U) l l' : rmap f (l ++ l') = let? a := rmap f l in let? b := rmap f l' in Ok (a ++ b).
Proof.
  induction l as [|x l IH]; cbn [app rmap rbind]; [destruct (rmap f l'); reflexivity|]. rewrite IH. destruct (f x); cbn [rbind]; auto.
  destruct (rmap f l); cbn [rbind]; auto. destruct (rmap f l'); reflexivity.
Qed.
Lemma complete_more {L} A b partial (pool : list (rule L)) fs p j k rj rk f f' route : root_ok A b -> measured pool fs -> varied fs -> boxes pool ->
  square_for positive (length pool) p -> route <> [] -> Forall (fun i => (i < length pool)%nat) route ->
  nth_error pool j = Some rj -> nth_error pool k = Some rk -> nth_error fs j = Some f -> nth_error fs k = Some f' -> f == f' ->
  (forall i, In i (looked_at partial route) -> cell p i j = cell p i k) -> cell p j j = cell p k k ->
  (forall i ri s t, In i (looked_at partial route) -> nth_error pool i = Some ri -> share ri rj s -> share ri rk t -> t <= s) ->
  exists eta q q', relative_fitness pool = Ok eta /\ com_prob A b partial p pool eta route j = Ok (Fin q) /\
    com_prob A b partial p pool eta route k = Ok (Fin q') /\ q <= q'.
Proof.
  intros HR HM HV HB HS HN HRt Ej Ek Fj Fk HFF HC HC' HO.
  destruct (heuristics_all pool fs HM HV) as (eta & lo & hi & He & Hlt & HA).
  destruct (HA j f Fj) as (e0 & e1 & Hn & He0 & He1 & B0 & B1). destruct (HA k f' Fk) as (e0' & e1' & Hn' & He0' & He1' & B0' & B1').
  assert (Q0 : e0 == e0') by (rewrite He0, He0', HFF; reflexivity). assert (Q1 : e1 == e1') by (rewrite He1, He1', HFF; reflexivity).
  assert (HLa : looked_at partial route <> []) by (unfold looked_at; destruct partial; [auto|discriminate]).
  assert (HLb : Forall (fun i => (i < length pool)%nat) (looked_at partial route)).
  { unfold looked_at. destruct partial; auto. constructor; auto. destruct (exists_last HN) as (l & x & ->). rewrite last_last. apply Forall_app in HRt. destruct HRt as [_ HX]. inversion HX; auto. }
  destruct (shares_exist pool rj _ HB (nth_error_In _ _ Ej) HLb) as (ss & S1 & S2 & _).
  destruct (shares_exist pool rk _ HB (nth_error_In _ _ Ek) HLb) as (ts & T1 & T2 & _).
  destruct (prob_value A b partial p pool eta route j rj e0 e1 ss HN Ej Hn HS S1) as (taus & t0 & t1 & x & y & U1 & U2 & P0 & P1 & Hx & Hy & HP).
  destruct (prob_value A b partial p pool eta route k rk e0' e1' ts HN Ek Hn' HS T1) as (taus' & t0' & t1' & x' & y' & U1' & U2' & _ & _ & Hx' & Hy' & HP').
  assert (HT : taus' = taus).
  { rewrite rmap_app in U1, U1'. rewrite (same_entries p j k _ HC) in U1.
    assert (HL : rmap (fun i => entry p i j) [j] = rmap (fun i => entry p i k) [k]).
    { unfold cell in HC'. cbn [rmap]. unfold entry. destruct (nth_error p j) as [r|]; destruct (nth_error p k) as [r'|]; cbn [of_option rbind]; auto.
      - rewrite HC'. reflexivity. - rewrite HC'. reflexivity. - rewrite <- HC'. reflexivity. }
    rewrite HL, U1' in U1. congruence. }
  subst taus'. rewrite U2 in U2'. inversion U2'; subst t0' t1'.
  assert (HSS : Forall2 (fun s t => t <= s) ss ts).
  { clear - S1 T1 HO. revert ts T1 HO. induction S1 as [|i s la ss (ri & Hi & Hs) S1 IH]; intros ts T1 HO; inversion T1 as [|? t ? ts' (ri' & Hi' & Ht) T1']; subst; constructor.
    - assert (ri' = ri) by congruence. subst. apply (HO i ri s t); auto. left; auto.
    - apply IH; auto. intros i' r s' t' HI. apply HO. right; auto. }
  pose proof (mean_mono _ _ HSS) as MM.
  assert (HNs : ss <> []) by (destruct (looked_at partial route); [congruence|inversion S1; subst; discriminate]).
  assert (HNt : ts <> []) by (destruct (looked_at partial route); [congruence|inversion T1; subst; discriminate]).
  destruct (mean_bound ss HNs S2) as [MB _]. destruct (mean_bound ts HNt T2) as [MB' _].
  destruct (weights_mono A b t0 t1 (e0 * x) (e1 * y) (e0' * x') (e1' * y') HR P0 P1) as (q & q' & W1 & W2 & W3).
  - rewrite <- Q0. split; nra.
  - rewrite <- Q1. split; nra.
  - exists eta, q, q'. rewrite HP, HP', W1, W2. auto.
Qed.
(* an ant that draws a positive number passes by *)
Lemma visit_skips {L} A b partial (pool : list (rule L)) p eta route j q (s : hst plain) : com_prob A b partial p pool eta route j = Ok (Fin q) -> q == 0 ->
  0 < fst (random (hrng s)) -> exists s', com_visit A b partial p pool eta route j s = (Ok route, s').
Proof.
  intros HP HQ HU. unfold com_visit. rewrite (bind_ok _ _ _ (Fin q) s) by (rewrite HP; reflexivity).
  unfold rnd1. destruct (random (hrng s)) as [u g] eqn:EU. cbn [fst] in HU. exists (with_r s g).
  rewrite (bind_ok _ _ _ u (with_r s g)); [|rewrite rnd_eq; rewrite EU; reflexivity]. cbn [nle]. destruct (qle_spec u q); [lra|]. reflexivity.
Qed.

(* ----- one iteration of the colony ----- *)
Lemma safe_aco_marks {L} (E : env L) (A : nat -> Prop) B tau0 ok c pop p (s : hst plain) : builder_ok B tau0 ok ->
  inv A s -> Forall (good E A s) pop -> ok (fun _ => True) (length (epool E)) p ->
  safe E A false (aco_step B c E (pop, p)) (fun z s' => Forall (honest E s') pop /\ fst z = pop /\ exists best marks,
    (no_nan_fit s' pop -> fittest_k s' (a_best c) pop best) /\
    Forall2 (fun r m => exists bits a, shows s' r bits (Some a) /\ m = (bits, nmul (sfitness a) (Fin (a_c c)))) best marks /\
    snd z = ph_map B (nclip (Fin (a_min c)) (Fin (a_max c)))
      (fold_left (fun q m => ph_update B q (fst m) (snd m)) marks (ph_map B (nmul (Fin (1 - a_evap c))) p))) s.
Proof.
  intros HB I HG HO. cbn [aco_step].
  apply safe_bind with (Q := fun _ _ => True).
  { eapply safe_post; [apply (safe_miter E A false _ (fun _ _ => True)); auto|auto].
    intros r s1 Hr G1. eapply safe_bind; [apply (bo_build _ _ _ HB) with (P := fun _ => True); [inv_of G1|exact HO]|].
    intros bits s2 G2 HL. cbv beta in *. eapply safe_post; [apply safe_set_genome; [inv_of G2| |exact HL]|auto].
    eapply grow_good; [exact G2|]. eapply grow_good; [exact G1|]. rewrite Forall_forall in HG. auto. }
  intros u s1 G1 _. cbv beta. pose proof (grow_goods _ _ _ _ _ _ G1 HG) as HG1.
  eapply safe_bind; [apply safe_fit_all; [inv_of G1|exact HG1]|]. intros pop' s2 G2 (-> & HG2 & HH2). cbv beta zeta.
  eapply safe_bind; [apply safe_ranked; [inv_of G2|exact HG2]|]. intros ranked s0 _ (-> & HP & HK & _). cbv beta.
  apply safe_bind with (Q := fun marks s' => s' = s2 /\
    Forall2 (fun r m => exists bits a, shows s2 r bits (Some a) /\ m = (bits, nmul (sfitness a) (Fin (a_c c)))) (firstn (a_best c) ranked) marks).
  { assert (HR : Forall (fun r => good E A s2 r /\ honest E s2 r) (firstn (a_best c) ranked)).
    { apply Forall_forall. intros r Hr. apply In_firstn in Hr. rewrite Forall_forall in HG2, HH2. assert (In r pop) by (eapply Permutation_in; eauto). auto. }
    assert (I2 : inv A s2) by inv_of G2. clear - HR I2. revert HR. generalize (firstn (a_best c) ranked) as l.
    induction l as [|r l IH]; intros HR; cbn [mmap]; [apply safe_ret; auto|]. inversion HR as [|? ? [Hg Hh] HR']; subst.
    eapply safe_bind with (Q := fun m s' => s' = s2 /\ exists bits a, shows s2 r bits (Some a) /\ m = (bits, nmul (sfitness a) (Fin (a_c c)))).
    - eapply safe_bind; [apply safe_genome; eauto|]. intros bits s0 _ (-> & HL & HS). cbv beta.
      eapply safe_bind; [apply safe_fitness_held; [auto|left; eauto]|]. intros f s0 _ (-> & Hf). cbv beta. apply safe_ret; auto. split; auto.
      destruct Hf as (bits' & a & HS' & ->). destruct HS as (a' & HS). exists bits, a. split; auto.
      destruct HS as (o & O1 & O2 & O3), HS' as (o' & O1' & O2' & O3'). assert (o' = o) by congruence. subst o'. exists o. auto.
    - intros m s0 _ (-> & H1). cbv beta. eapply safe_bind; [apply IH; auto|]. intros ms s0 _ (-> & Hms). apply safe_ret; auto. }
  intros marks s0 _ (-> & HM). cbv beta. apply safe_ret; [inv_of G2|]. cbn [fst snd]. split; auto. split; auto.
  exists (firstn (a_best c) ranked), marks. auto.
Qed.
