(* The random filters of the mixing model (C73). *)
From Coq Require Import Lia Permutation.
From Verif Require Import PyNum PyList PyMon PyRng L_Num L_List L_Rng M_Matching M_Rule M_Mixing L_Mixing L_GenomeProps S_Filters.
From Coq Require Import Lqa.

(* every selection without replacement can be drawn *)
Lemma remove_nth_other {A} (l : list A) : forall i j, (j < i)%nat -> nth_error (remove_nth i l) j = nth_error l j.
Proof. induction l as [|x l IH]; intros [|i] [|j] H; cbn; auto; try lia. apply IH. lia. Qed.
Lemma perm_at {A} (x : A) out : forall l, Permutation l (x :: out) -> exists i, nth_error l i = Some x /\ Permutation (remove_nth i l) out.
Proof.
  intros l H. assert (HIn : In x l) by (eapply Permutation_in; [apply Permutation_sym; exact H|left; auto]).
  apply In_nth_error in HIn as (i & Hi). exists i. split; auto. assert (HL : (i < length l)%nat) by (apply nth_error_Some; congruence).
  pose proof (remove_nth_perm l i x HL) as HP. rewrite (nth_error_nth _ _ _ Hi) in HP. apply (Permutation_cons_inv (a := x)). rewrite <- HP. exact H.
Qed.
Lemma take_out_onto {A} (out : list A) : forall l rest p, Permutation l (out ++ rest) ->
  exists t, forall t', (forall i, (i < length out)%nat -> t' (p + i)%nat = t (p + i)%nat) -> fst (take_out (length out) l (mkRng t' p)) = out.
Proof.
  induction out as [|x out IH]; intros l rest p H; [exists (fun _ => 0); intros; reflexivity|].
  destruct (perm_at x (out ++ rest) l H) as (i & Hi & HP). destruct (IH (remove_nth i l) rest (S p) HP) as (t & Ht).
  exists (fun k => if Nat.eqb k p then qofnat i else t k). intros t' HT. cbn [length take_out]. destruct l as [|y l']; [destruct i; discriminate Hi|].
  unfold draw. cbn [tape pos]. assert (E0 : t' p = qofnat i). { specialize (HT 0%nat). rewrite Nat.add_0_r in HT. rewrite HT by (cbn; lia). rewrite Nat.eqb_refl. reflexivity. }
  rewrite E0. assert (HL : (i < length (y :: l'))%nat) by (apply nth_error_Some; congruence). rewrite (index_of_onto _ _ HL).
  specialize (Ht t'). destruct (take_out (length out) (remove_nth i (y :: l')) (mkRng t' (S p))) as [r g2] eqn:ET. cbn [fst] in *. rewrite Ht.
  - f_equal. apply nth_error_nth. exact Hi.
  - intros j Hj. specialize (HT (S j)). replace (p + S j)%nat with (S p + j)%nat in HT by lia. rewrite HT by (cbn; lia).
    destruct (Nat.eqb_spec (S p + j) p); [lia|reflexivity].
Qed.
Lemma sample_onto {A} (l out rest : list A) : Permutation l (out ++ rest) -> exists g g', sample l (length out) g = (Ok out, g').
Proof.
  intros H. destruct (take_out_onto out l rest 0 H) as (t & Ht). exists (mkRng t 0). unfold sample.
  assert (HL : (length out <= length l)%nat) by (rewrite (Permutation_length H), app_length; lia). destruct (Nat.ltb_spec (length l) (length out)); [lia|].
  specialize (Ht t (fun _ _ => eq_refl)). destruct (take_out (length out) l (mkRng t 0)) as [r g']. cbn [fst] in Ht. subst r. eauto.
Qed.
Lemma sample_total {A} (l : list A) k g : (k <= length l)%nat -> exists out g', sample l k g = (Ok out, g').
Proof. intros H. unfold sample. destruct (Nat.ltb_spec (length l) k); [lia|]. destruct (take_out k l g). eauto. Qed.

Section Filters.
Context {L : learner}.
Lemma nrandom_total n (rs : list (rule L)) g : exists out g', apply_filter L (NRandom n) rs g = (Ok out, g') /\ some_of L (Nat.min (length rs) n) rs out.
Proof.
  cbn [apply_filter]. destruct (sample_total rs (Nat.min (length rs) n) g) as (out & g' & H); [lia|]. exists out, g'. split; auto. apply sample_ok in H. exact H.
Qed.
Lemma nrandom_onto n (rs out : list (rule L)) : some_of L (Nat.min (length rs) n) rs out -> exists g g', apply_filter L (NRandom n) rs g = (Ok out, g').
Proof. intros (H1 & rest & H2). cbn [apply_filter]. rewrite <- H1. eapply sample_onto; eauto. Qed.

Lemma graded_fits (rs : list (rule L)) : Forall (graded L) rs -> exists qs, rmap (fitness_of L) rs = Ok (map Fin qs) /\ Forall2 (fun r q => fit_or_nan L r = Fin q /\ 0 <= q) rs qs.
Proof.
  induction 1 as [|r rs (a & q & H1 & H2 & H3) _ (qs & IH1 & IH2)]; [exists []; split; [reflexivity|constructor]|].
  exists (q :: qs). cbn [rmap map]. unfold fitness_of at 1, get_att. rewrite H1. cbn [of_option rbind]. rewrite H2, IH1. split; [reflexivity|]. constructor; auto.
  unfold fit_or_nan. rewrite H1. auto.
Qed.
Lemma separated_graded rs good : separated L rs good -> Forall (graded L) rs.
Proof. induction 1 as [|r rs good (a & q & H1 & H2 & H3)|r rs good (a & q & H1 & H2 & H3)]; constructor; auto; exists a, q; repeat split; auto; lra. Qed.
Lemma graded_separated rs : Forall (graded L) rs -> exists good, separated L rs good.
Proof.
  induction 1 as [|r rs (a & q & H1 & H2 & H3) _ (good & IH)]; [exists []; constructor|].
  destruct (Qlt_le_dec 0 q); [exists (r :: good); apply sep_take; auto; exists a, q; auto|exists good; apply sep_skip; auto; exists a, q; repeat split; auto; lra].
Qed.
Lemma promising_nth rs good : separated L rs good -> Forall (promising L) good.
Proof. induction 1; auto. Qed.
Lemma sum_zero qs : Forall (fun q => 0 <= q) qs -> 0 <= qsum qs.
Proof. induction 1; [cbn; lra|]. change (qsum (x :: l)) with (x + qsum l). lra. Qed.
Lemma separated_sum rs good : separated L rs good -> forall qs, Forall2 (fun r q => fit_or_nan L r = Fin q /\ 0 <= q) rs qs -> (good = [] -> qsum qs == 0) /\ (good <> [] -> 0 < qsum qs).
Proof.
  induction 1 as [|r rs good (a & q & H1 & H2 & H3) HS IH|r rs good (a & q & H1 & H2 & H3) HS IH]; intros qs HF; inversion HF; subst.
  - split; [intros _; reflexivity|congruence].
  - destruct H4 as [H4 _]. unfold fit_or_nan in H4. rewrite H1, H2 in H4. injection H4 as <-. split; [discriminate|]. intros _.
    assert (0 <= qsum l') by (apply sum_zero; clear -H6; induction H6 as [|? ? ? ? [_ H] _ IH]; constructor; auto). change (qsum (q :: l')) with (q + qsum l'). lra.
  - destruct H4 as [H4 _]. unfold fit_or_nan in H4. rewrite H1, H2 in H4. injection H4 as <-. change (qsum (q :: l')) with (q + qsum l'). destruct (IH l' H6) as [I1 I2].
    split; intros HG; [specialize (I1 HG)|specialize (I2 HG)]; lra.
Qed.
Lemma separated_compress rs good : separated L rs good -> forall qs t, 0 < t -> Forall2 (fun r q => fit_or_nan L r = Fin q /\ 0 <= q) rs qs ->
  compress rs (map (nlt (Fin 0)) (map (fun q => Fin (q / t)) qs)) = good.
Proof.
  intros HS. induction HS as [|r rs good (a & q & H1 & H2 & H3) HS IH|r rs good (a & q & H1 & H2 & H3) HS IH]; intros qs t Ht HF; inversion HF; subst; [reflexivity| |];
    (destruct H4 as [H4 _]; unfold fit_or_nan in H4; rewrite H1, H2 in H4; injection H4 as <-); cbn [map compress nlt].
  - assert (E : qlt 0 (q / t) = true) by (apply qlt_iff; apply Qlt_shift_div_l; lra). rewrite E. f_equal. apply IH; auto.
  - assert (E : qlt 0 (q / t) = false) by (apply qlt_false; apply Qle_shift_div_r; lra). rewrite E. apply IH; auto.
Qed.
Lemma roulette_eq n rs good g : separated L rs good -> apply_filter L (RouletteWheel n) rs g =
  if Nat.eqb (length good) 0 && negb (Nat.eqb (length rs) 0) then (Raise ValueError, g) else sample good (Nat.min (length rs) n) g.
Proof.
  intros HS. cbn [apply_filter]. destruct (graded_fits rs (separated_graded _ _ HS)) as (qs & E & HF). rewrite E.
  destruct (nsum_fin qs 0) as (t & Et & Ht). rewrite Et. destruct (separated_sum rs good HS qs HF) as [Z1 Z2].
  assert (Lq : length rs = length qs) by (clear -HF; induction HF; cbn; auto).
  destruct good as [|r0 good].
  - cbn [length Nat.eqb andb]. assert (E0 : t == 0) by (rewrite Ht, Z1; auto; lra). destruct rs as [|r rs]; cbn [length Nat.eqb negb].
    + destruct qs; [|discriminate]. reflexivity.
    + destruct qs as [|q qs]; [discriminate|]. cbn [map]. assert (EN : ndiv (Fin q) (Fin t) = NaN \/ ndiv (Fin q) (Fin t) = PInf).
      { inversion HF as [|? ? ? ? [_ HQ]]; subst. cbn [ndiv]. assert (EQ : qeq t 0 = true) by (apply qeq_iff; exact E0). rewrite EQ. destruct (qeq_spec q 0); [auto|]. right. destruct (qlt_spec 0 q); [reflexivity|lra]. }
      cbn [forallb]. destruct EN as [-> | ->]; cbn [nle is_fin andb]; [reflexivity|]. rewrite Bool.andb_false_r. reflexivity.
  - cbn [length Nat.eqb andb]. assert (P0 : 0 < t) by (rewrite Ht; specialize (Z2 ltac:(discriminate)); lra).
    assert (EM : map (fun x => ndiv x (Fin t)) (map Fin qs) = map (fun q => Fin (q / t)) qs).
    { rewrite map_map. apply map_ext. intros q. cbn [ndiv]. destruct (qeq_spec t 0); [lra|reflexivity]. }
    rewrite EM. rewrite (separated_compress _ _ HS qs t P0 HF).
    assert (EB : forallb (nle (Fin 0)) (map (fun q => Fin (q / t)) qs) && forallb is_fin (map (fun q => Fin (q / t)) qs) = true).
    { apply andb_true_intro. split; apply forallb_forall; intros x Hx; apply in_map_iff in Hx as (q & <- & Hq); [|reflexivity]. cbn [nle]. apply qle_iff. apply Qle_shift_div_l; auto.
      assert (0 <= q); [|lra]. clear -HF Hq. induction HF as [|? ? ? ? [_ H] _ IH]; [destruct Hq|]. destruct Hq as [<-|Hq]; auto. }
    rewrite EB. reflexivity.
Qed.
Lemma roulette_total n rs good g : separated L rs good -> good <> [] -> (Nat.min (length rs) n <= length good)%nat ->
  exists out g', apply_filter L (RouletteWheel n) rs g = (Ok out, g') /\ some_of L (Nat.min (length rs) n) good out.
Proof.
  intros HS HN HL. rewrite (roulette_eq n rs good g HS). destruct good as [|r0 good]; [congruence|]. cbn [length Nat.eqb andb].
  destruct (sample_total (r0 :: good) (Nat.min (length rs) n) g HL) as (out & g' & H). exists out, g'. split; auto. apply sample_ok in H. exact H.
Qed.
Lemma roulette_onto n rs good out : separated L rs good -> good <> [] -> some_of L (Nat.min (length rs) n) good out -> exists g g', apply_filter L (RouletteWheel n) rs g = (Ok out, g').
Proof.
  intros HS HN (H1 & rest & H2). destruct (sample_onto good out rest H2) as (g & g' & H). exists g, g'. rewrite (roulette_eq n rs good g HS). destruct good as [|r0 good]; [congruence|].
  cbn [length Nat.eqb andb]. rewrite <- H1. exact H.
Qed.
Lemma roulette_too_few n rs good g : separated L rs good -> (length good < Nat.min (length rs) n)%nat -> apply_filter L (RouletteWheel n) rs g = (Raise ValueError, g).
Proof.
  intros HS HL. rewrite (roulette_eq n rs good g HS). destruct (_ && _); [reflexivity|]. unfold sample. destruct (Nat.ltb_spec (length good) (Nat.min (length rs) n)); [reflexivity|lia].
Qed.
Lemma rmap_ok_each {A B} (f : A -> res B) l : (forall x, In x l -> exists y, f x = Ok y) -> exists ys, rmap f l = Ok ys /\ Forall2 (fun x y => f x = Ok y) l ys.
Proof.
  induction l as [|x l IH]; intros H; [exists []; split; [reflexivity|constructor]|]. destruct (H x) as (y & Hy); [left; auto|]. destruct IH as (ys & H1 & H2); [intros; apply H; right; auto|].
  exists (y :: ys). cbn [rmap]. rewrite Hy. cbn [rbind]. rewrite H1. split; [reflexivity|constructor; auto].
Qed.
(* one rule that matched nothing spoils the wheel *)
Lemma total_ninf fs : forall acc, In NInf fs \/ acc = NInf \/ acc = NaN -> Forall (fun f => f = NInf \/ exists q, f = Fin q) fs -> (acc = NInf \/ acc = NaN \/ exists q, acc = Fin q) ->
  fold_left nadd fs acc = NInf \/ fold_left nadd fs acc = NaN.
Proof.
  induction fs as [|f fs IH]; intros acc HI HF HA; cbn [fold_left]; [destruct HI as [[]|[->| ->]]; auto|].
  apply Forall_cons_iff in HF as [Hf HF]. apply IH; auto.
  - destruct HI as [[->|HI]|[->| ->]]; auto.
    + right. destruct HA as [->|[->|(q & ->)]]; cbn; auto.
    + right. destruct Hf as [->|(q & ->)]; cbn; auto.
  - destruct HA as [->|[->|(q & ->)]], Hf as [->|(q' & ->)]; cbn; eauto.
Qed.
Lemma unmatched_fits (rs : list (rule L)) : Forall (fun r => graded L r \/ unmatched L r) rs ->
  exists fs, rmap (fitness_of L) rs = Ok fs /\ Forall (fun f => f = NInf \/ exists q, f = Fin q) fs /\ (Exists (unmatched L) rs -> In NInf fs).
Proof.
  induction 1 as [|r rs Hr _ (fs & I1 & I2 & I3)]; [exists []; repeat split; [constructor|intros H; inversion H]|].
  assert (HR : exists f, fitness_of L r = Ok f /\ (f = NInf \/ exists q, f = Fin q) /\ (unmatched L r -> f = NInf)).
  { unfold fitness_of, get_att. destruct Hr as [(a & q & E1 & E2 & _)|(a & E1 & E2)]; rewrite E1; cbn [of_option rbind]; exists (fitness a); rewrite E2; repeat split; eauto.
    intros (a' & E3 & E4). rewrite E1 in E3. injection E3 as <-. congruence. }
  destruct HR as (f & H1 & H2 & H3). exists (f :: fs). cbn [rmap]. rewrite H1. cbn [rbind]. rewrite I1. repeat split; auto.
  intros HE. inversion HE; subst; [left; auto|right; auto].
Qed.
Lemma roulette_unmatched n rs g : Forall (fun r => graded L r \/ unmatched L r) rs -> Exists (unmatched L) rs -> apply_filter L (RouletteWheel n) rs g = (Raise ValueError, g).
Proof.
  intros HF HE. cbn [apply_filter]. destruct (unmatched_fits rs HF) as (fs & E & HFs & HI). specialize (HI HE). rewrite E.
  pose proof (total_ninf fs (Fin 0) (or_introl HI) HFs (or_intror (or_intror (ex_intro _ 0 eq_refl)))) as HT.
  assert (EN : ndiv NInf (fold_left nadd fs (Fin 0)) = NaN) by (destruct HT as [-> | ->]; reflexivity).
  assert (EB : forallb (nle (Fin 0)) (map (fun f => ndiv f (fold_left nadd fs (Fin 0))) fs) = false).
  { apply Bool.not_true_is_false. intros HB. rewrite forallb_forall in HB. specialize (HB NaN). rewrite <- EN in HB at 1. specialize (HB (in_map (fun f => ndiv f (fold_left nadd fs (Fin 0))) _ _ HI)). discriminate HB. }
  rewrite EB. reflexivity.
Qed.
End Filters.

(* ----- what the filters mean for predictions ----- *)
From Verif Require Import S_Matching S_Mixing L_Matching.
Section Mixed.
Context {L : learner}.
Lemma votes_perm mx dim x rs rs' : Permutation rs rs' -> forall vs, votes L mx dim x rs vs -> exists vs', votes L mx dim x rs' vs' /\ Permutation vs vs'.
Proof.
  induction 1 as [|r rs rs' HP IH|a b rs|rs1 rs2 rs3 H1 IH1 H2 IH2]; intros vs HV.
  - exists vs. auto.
  - inversion HV; subst.
    + match goal with H : votes _ _ _ _ rs _ |- _ => destruct (IH _ H) as (vs' & I1 & I2) end. eexists. split; [apply votes_hit; eauto|auto].
    + match goal with H : votes _ _ _ _ rs _ |- _ => destruct (IH _ H) as (vs' & I1 & I2) end. eexists. split; [apply votes_miss; eauto|auto].
  - inversion HV; subst; match goal with H : votes _ _ _ _ (_ :: rs) _ |- _ => inversion H; subst end;
      (eexists; split; [repeat first [apply votes_hit; [eassumption|eassumption|eassumption|]|apply votes_miss; [eassumption|]|eassumption]|auto]); apply perm_swap.
  - destruct (IH1 _ HV) as (v2 & I1 & I2). destruct (IH2 _ I1) as (v3 & J1 & J2). exists v3. split; auto. eapply perm_trans; eauto.
Qed.
Lemma sums_perm vs vs' : Permutation vs vs' -> total vs == total vs' /\ weighted vs == weighted vs'.
Proof. induction 1 as [|[w v] vs vs' _ [I1 I2]|[w v] [w' v'] vs|? ? ? _ [I1 I2] _ [J1 J2]]; cbn [total weighted]; split; lra. Qed.
Lemma mixed_perm mx dim rs rs' x out : Permutation rs rs' -> S_Mixing.mixed L mx dim rs x out -> S_Mixing.mixed L mx dim rs' x out.
Proof.
  intros HP (vs & HV & H0 & H1). destruct (votes_perm mx dim x rs rs' HP vs HV) as (vs' & HV' & HPV). destruct (sums_perm vs vs' HPV) as [E1 E2].
  exists vs'. split; auto. rewrite <- E1, <- E2. auto.
Qed.
Lemma some_of_in k (rs out : list (rule L)) : some_of L k rs out -> forall r, In r out -> In r rs.
Proof. intros (_ & rest & HP) r Hr. eapply Permutation_in; [apply Permutation_sym; exact HP|]. apply in_or_app. auto. Qed.
Lemma some_of_all (rs out : list (rule L)) : some_of L (length rs) rs out -> Permutation out rs.
Proof.
  intros (HL & rest & HP). pose proof (Permutation_length HP) as E. rewrite app_length in E. destruct rest; [|cbn in E; lia]. rewrite app_nil_r in HP. apply Permutation_sym. exact HP.
Qed.
Lemma nrandom_mixed mx X rs g dim n : mfilter mx = NRandom n -> Forall (fun x => length x = dim) X -> rs <> [] -> Forall (ready L dim) rs ->
  exists kept out g', some_of L (Nat.min (length rs) n) rs kept /\ mixing_call L mx X rs false g = (Ok out, g') /\ Forall2 (S_Mixing.mixed L mx dim kept) X out.
Proof.
  intros HF HX HN HR. destruct (nrandom_total n rs g) as (kept & g' & HA & HS). rewrite <- HF in HA.
  destruct (mixing_call_spec L mx X rs g kept g' dim HX HN HA) as (out & H1 & H2).
  { rewrite Forall_forall in *. intros r Hr. apply HR. eapply some_of_in; eauto. }
  exists kept, out, g'. auto.
Qed.
Lemma roulette_mixed mx X rs good g dim n : mfilter mx = RouletteWheel n -> Forall (fun x => length x = dim) X -> rs <> [] -> Forall (ready L dim) rs ->
  separated L rs good -> good <> [] -> (Nat.min (length rs) n <= length good)%nat ->
  exists kept out g', some_of L (Nat.min (length rs) n) good kept /\ mixing_call L mx X rs false g = (Ok out, g') /\ Forall2 (S_Mixing.mixed L mx dim kept) X out.
Proof.
  intros HF HX HN HR HSep HG HL. destruct (roulette_total n rs good g HSep HG HL) as (kept & g' & HA & HS). rewrite <- HF in HA.
  assert (HI : forall r, In r good -> In r rs) by (clear -HSep; induction HSep; cbn; intros; intuition).
  destruct (mixing_call_spec L mx X rs g kept g' dim HX HN HA) as (out & H1 & H2).
  { rewrite Forall_forall in *. intros r Hr. apply HR. apply HI. eapply some_of_in; eauto. }
  exists kept, out, g'. auto.
Qed.
Lemma nrandom_all mx X rs g dim n : mfilter mx = NRandom n -> Forall (fun x => length x = dim) X -> rs <> [] -> Forall (ready L dim) rs -> (length rs <= n)%nat ->
  exists out g', mixing_call L mx X rs false g = (Ok out, g') /\ Forall2 (S_Mixing.mixed L mx dim rs) X out.
Proof.
  intros HF HX HN HR HL. destruct (nrandom_mixed mx X rs g dim n HF HX HN HR) as (kept & out & g' & H1 & H2 & H3). exists out, g'. split; auto.
  rewrite Nat.min_l in H1 by lia. eapply Forall2_impl; [|exact H3]. intros x o. apply mixed_perm. apply some_of_all. exact H1.
Qed.
Lemma mixed_none mx dim x out : S_Mixing.mixed L mx dim [] x out -> out == 0.
Proof. intros (vs & HV & H0 & _). inversion HV; subst. apply H0. reflexivity. Qed.
Lemma nrandom_zero mx X rs g dim : mfilter mx = NRandom 0 -> Forall (fun x => length x = dim) X -> Forall (ready L dim) rs ->
  exists out g', mixing_call L mx X rs false g = (Ok out, g') /\ length out = length X /\ Forall (fun v => v == 0) out.
Proof.
  intros HF HX HR. destruct rs as [|r rs].
  - exists (repeat 0 (length X)), g. cbn [mixing_call]. rewrite repeat_length. repeat split. apply Forall_forall. intros v Hv. apply repeat_spec in Hv. subst. reflexivity.
  - destruct (nrandom_mixed mx X (r :: rs) g dim 0 HF HX ltac:(discriminate) HR) as (kept & out & g' & H1 & H2 & H3). exists out, g'. split; auto.
    destruct H1 as (H1 & _). rewrite Nat.min_0_r in H1. destruct kept; [|discriminate]. clear -H3. induction H3 as [|x o X out H _ [I1 I2]]; cbn; auto. split; [lia|]. constructor; auto. eapply mixed_none; eauto.
Qed.
(* experience capped at nothing, or a weight of nothing *)
Lemma weightless mx dim rs x out : S_Mixing.mixed L mx dim rs x out -> (forall r w, In r rs -> has_weight L mx dim r w -> w == 0) -> out == 0.
Proof.
  intros (vs & HV & H0 & _) HW. assert (HZ : total vs == 0 /\ weighted vs == 0).
  { clear H0. induction HV as [|r rs w v vs Hc Hw Hs HV IH|r rs vs Hc HV IH]; cbn [total weighted].
    - split; reflexivity.
    - destruct IH as [I1 I2]; [intros; eapply HW; eauto; right; auto|]. rewrite I1, I2. rewrite (HW r w); [|left; auto|exact Hw]. split; lra.
    - apply IH. intros; eapply HW; eauto; right; auto. }
  destruct HZ as [Z1 Z2]. rewrite (H0 Z1). exact Z2.
Qed.
Lemma capped_away mx dim rs x out lower upper : S_Mixing.mixed L mx dim rs x out -> Forall (fun r => forall a, att r = Some a -> 0 <= experience a) rs ->
  (mexp mx = CapExperience lower (Some upper) \/ mexp mx = CapExperienceWithDimensionality lower (Some upper)) -> upper == 0 -> (forall l, lower = Some l -> 0 <= l) -> out == 0.
Proof.
  intros HM HE HC HU HLo. eapply weightless; [exact HM|]. intros r w Hr (a & k & Ha & HK & [(e & He & ->) | (_ & ->)]); [|reflexivity]. rewrite Forall_forall in HE. pose proof (HE r Hr a Ha) as HX.
  assert (Z : k == 0); [|rewrite Z; unfold Qdiv; rewrite Qmult_0_l, Qmult_0_l; reflexivity].
  assert (HD : 0 <= inject_Z (Z.of_nat dim)) by (change 0 with (inject_Z 0); rewrite <- Zle_Qle; lia).
  assert (G : forall lo up, (forall u, up = Some u -> u == 0) -> (exists u, up = Some u) -> (forall l, lo = Some l -> 0 <= l) -> S_Mixing.limited lo up (experience a) k -> k == 0).
  { intros lo up U1 (u0 & U0) U2 HLim. inversion HLim as [u E1 E2 E3|l E1 E2 E3 E4|E1 E2 E3|l u E1 E2 E3 E4].
    - rewrite E3. auto.
    - rewrite E4. specialize (E3 u0 U0). specialize (U1 u0 U0). specialize (U2 l E1). lra.
    - rewrite E3. specialize (E2 u0 U0). specialize (U1 u0 U0). lra.
    - rewrite E4. auto. }
  unfold counted in HK. destruct HC as [HC|HC]; rewrite HC in HK; cbv zeta in HK; eapply G; try exact HK.
  - intros u E. injection E as <-. exact HU.
  - eauto.
  - exact HLo.
  - intros u E. cbn [option_map] in E. injection E as <-. rewrite HU. lra.
  - cbn [option_map]. eauto.
  - intros l E. destruct lower as [l0|]; [|discriminate E]. cbn [option_map] in E. injection E as <-. apply Qmult_le_0_compat; auto.
Qed.
End Mixed.
