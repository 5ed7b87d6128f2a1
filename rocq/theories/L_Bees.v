(* The moves of the bees evaluated over the tape (C74). *)
From Coq Require Import Lia Permutation.
From Verif Require Import PyNum PyList PyMon PyRng PyStat L_Num L_List L_Rng M_Matching M_Rule M_Mixing M_Solution S_Solution
  L_Heap M_Composition S_Composition L_Safe L_SafeFit L_Composition M_GenomeOps S_GenomeOps L_Ranks L_GenomeOps L_GenomeProps L_SasProps
  L_Held M_Abc S_Abc L_Abc L_AbcProps S_Moves L_Moves S_Bees L_Filters.
From Coq Require Import Lqa.

Lemma with_r_twice {K} (s : hst K) g g' : with_r (with_r s g) g' = with_r s g'. Proof. reflexivity. Qed.

Lemma sigmoid_food M own other s : length other = length own ->
  exists bits, food_bits M FSigmoid own other s = (Ok bits, with_r s (later (length own + length own) (hrng s))) /\ drifted M (hrng s) own other bits.
Proof.
  intros HL. cbn [food_bits]. set (n := length own) in *. rewrite (bind_ok _ _ _ _ _ (draw_tape n s)).
  set (qs := fst (draws n (hrng s))). set (xs := map2 _ (map (uniform_of (-(1)) 1) qs) (combine own other)).
  assert (Lq : length qs = n) by (unfold qs; apply draws_length).
  assert (Lx : length xs = n) by (unfold xs; rewrite map2_length_min, map_length, combine_length; lia).
  rewrite bin_eq, Lx, with_r_twice. cbn [with_r hrng]. rewrite later_later. eexists. split; [reflexivity|].
  split; [rewrite map2_length_min, randoms_length; lia|].
  intros i a b HA HB. assert (Hi : (i < n)%nat) by (apply nth_error_Some; congruence).
  pose proof (proj2 (draws_later n (hrng s)) i Hi) as Hq. pose proof (proj2 (randoms_later n (later n (hrng s))) i Hi) as Hu. rewrite number_later in Hu.
  assert (Hx : nth_error xs i = Some (Fin (bitq a + uniform_of (-(1)) 1 (tape (hrng s) (pos (hrng s) + i)) * (bitq a - bitq b)))).
  { unfold xs. rewrite (map2_nth _ _ _ i (uniform_of (-(1)) 1 (tape (hrng s) (pos (hrng s) + i))) (a, b)); [reflexivity|rewrite nth_error_map; unfold qs; rewrite Hq; reflexivity|apply combine_nth2; auto]. }
  eexists. eexists. split; [eapply map2_nth; [exact Hu|exact Hx]|]. split; [|reflexivity].
  unfold uniform_of, number. change bitq with bit_value. ring.
Qed.
Lemma bitwise_food M own other s : length other = length own ->
  exists bits, food_bits M FBitwise own other s = (Ok bits, with_r s (later (length own) (hrng s))) /\ toggled (hrng s) own other bits.
Proof.
  intros HL. cbn [food_bits]. set (n := length own) in *. rewrite (bind_ok _ _ _ _ _ (draw_tape n s)). eexists. split; [reflexivity|].
  split; [rewrite map2_length_min, draws_length, combine_length; lia|].
  intros i a b HA HB. assert (Hi : (i < n)%nat) by (apply nth_error_Some; congruence).
  pose proof (proj2 (draws_later n (hrng s)) i Hi) as Hq. rewrite (map2_nth _ _ _ i _ (a, b) Hq) by (apply combine_nth2; auto). cbn [fst snd]. f_equal. unfold coin.
  destruct (Nat.eqb _ 1), a, b; reflexivity.
Qed.
Lemma coin_any (want : nat -> bool) : exists g, pos g = 0%nat /\ forall i, coin g i = want i.
Proof.
  exists (mkRng (fun i => if want i then 1 else 0) 0). split; [reflexivity|]. intros i. unfold coin. cbn [tape pos]. rewrite Nat.add_0_l. destruct (want i); reflexivity.
Qed.

(* ----- DimensionFlips ----- *)
Lemma rounded_up_ceiling q : rounded_up q (Qceiling q).
Proof.
  split; [apply Qle_ceiling|]. pose proof (Qceiling_lt q) as H. unfold Z.sub in H. rewrite inject_Z_plus in H. change (inject_Z (- (1))) with (-(1)) in H.
  assert (E : forall a b : Q, a + -(1) < b -> a < b + 1) by (intros; lra). apply E. exact H.
Qed.
Lemma rounded_up_det q a b : rounded_up q a -> rounded_up q b -> a = b.
Proof.
  intros [A1 A2] [B1 B2]. assert (H1 : inject_Z a < inject_Z b + inject_Z 1) by (change (inject_Z 1) with 1; lra). assert (H2 : inject_Z b < inject_Z a + inject_Z 1) by (change (inject_Z 1) with 1; lra).
  rewrite <- inject_Z_plus in H1, H2. rewrite <- Zlt_Qlt in H1, H2. lia.
Qed.
Lemma patched_by dims own other : length other = length own -> patched dims own other (mapi (fun i ab => if mem i dims then snd ab else fst ab) (combine own other)).
Proof.
  intros HL. assert (HN : forall i, nth_error (mapi (fun i (ab : bool * bool) => if mem i dims then snd ab else fst ab) (combine own other)) i = if mem i dims then nth_error other i else nth_error own i).
  { intros i. rewrite mapi_nth. destruct (nth_error own i) as [a|] eqn:EA.
    - destruct (nth_error other i) as [b|] eqn:EB; [|apply nth_error_None in EB; assert (i < length own)%nat by (apply nth_error_Some; congruence); lia].
      rewrite (combine_nth2 _ _ _ _ _ EA EB). cbn. destruct (mem i dims); reflexivity.
    - apply nth_error_None in EA. assert (EB : nth_error other i = None) by (apply nth_error_None; lia). rewrite EB.
      assert (EC : nth_error (combine own other) i = None) by (apply nth_error_None; rewrite combine_length; lia). rewrite EC. destruct (mem i dims); reflexivity. }
  split.
  - unfold mapi. rewrite mapi_from_length, combine_length. lia.
  - intros i. rewrite HN. split; intros HI; [rewrite (proj2 (mem_iff i dims) HI); reflexivity|].
    destruct (mem i dims) eqn:E; [|reflexivity]. apply mem_iff in E. contradiction.
Qed.
Lemma perm_seq n dims rest : Permutation (seq 0 n) (dims ++ rest) -> NoDup dims /\ Forall (fun i => (i < n)%nat) dims.
Proof.
  intros HP. assert (HN : NoDup (dims ++ rest)) by (eapply Permutation_NoDup; [exact HP|apply seq_NoDup]). split; [apply NoDup_front in HN; exact HN|].
  apply Forall_forall. intros i Hi. assert (HI : In i (seq 0 n)) by (eapply Permutation_in; [apply Permutation_sym; exact HP|apply in_or_app; auto]). apply in_seq in HI. lia.
Qed.
Lemma NoDup_both {A} (l m : list A) : NoDup l -> NoDup m -> (forall x, In x l -> ~ In x m) -> NoDup (l ++ m).
Proof.
  revert m. induction l as [|x l IH]; intros m Hl Hm HX; cbn; auto. inversion Hl; subst. constructor.
  - intros HI; apply in_app_or in HI as [HI|HI]; [contradiction|apply (HX x); [left; auto|exact HI]].
  - apply IH; auto. intros y Hy. apply HX. right; auto.
Qed.
Lemma seq_perm n dims : NoDup dims -> Forall (fun i => (i < n)%nat) dims -> exists rest, Permutation (seq 0 n) (dims ++ rest).
Proof.
  intros HN HF. exists (filter (fun i => negb (mem i dims)) (seq 0 n)). apply NoDup_Permutation; [apply seq_NoDup| |].
  - apply NoDup_both; auto; [apply NoDup_filter; apply seq_NoDup|]. intros x Hx HI. apply filter_In in HI as [_ HI]. rewrite (proj2 (mem_iff x dims) Hx) in HI. discriminate.
  - intros x. split; intros HI.
    + destruct (mem x dims) eqn:E; apply in_or_app; [left; apply mem_iff; exact E|right; apply filter_In; rewrite E; auto].
    + apply in_app_or in HI as [HI|HI]; [rewrite Forall_forall in HF; specialize (HF x HI); apply in_seq; lia|apply filter_In in HI; apply HI].
Qed.
Lemma flips_eq M rate own other s : food_bits M (FDimensionFlips rate) own other s =
  if Z.ltb (Qceiling (qofnat (length own) * rate)) 0 then (Raise ValueError, s) else
  match sample (seq 0 (length own)) (Z.to_nat (Qceiling (qofnat (length own) * rate))) (hrng s) with
  | (Ok dims, g) => (Ok (mapi (fun i ab => if mem i dims then snd ab else fst ab) (combine own other)), with_r s g)
  | (Raise e, g) => (Raise e, with_r s g) end.
Proof.
  cbn [food_bits]. destruct (Z.ltb _ 0); [reflexivity|]. unfold bind. rewrite rnd_eq. destruct (sample _ _ (hrng s)) as [[d|e] g]; reflexivity.
Qed.
Lemma flips_food M rate own other s k : length other = length own -> rounded_up (qofnat (length own) * rate) k -> (0 <= k <= Z.of_nat (length own))%Z ->
  exists dims bits s', food_bits M (FDimensionFlips rate) own other s = (Ok bits, s') /\ choice_of (length own) k dims /\ patched dims own other bits /\ garr s' = garr s /\ sols s' = sols s.
Proof.
  intros HL HR HK. rewrite flips_eq. rewrite (rounded_up_det _ _ _ (rounded_up_ceiling (qofnat (length own) * rate)) HR). destruct (Z.ltb_spec k 0); [lia|].
  destruct (sample_total (seq 0 (length own)) (Z.to_nat k) (hrng s)) as (dims & g & E); [rewrite seq_length; lia|]. rewrite E. apply sample_ok in E as (E1 & rest & E2). apply perm_seq in E2 as [E2 E3].
  exists dims. eexists. eexists. split; [reflexivity|]. split; [split; [exact E2|split; [exact E3|lia]]|]. split; [apply patched_by; exact HL|]. split; reflexivity.
Qed.
Lemma flips_any M rate own other ga so k dims : length other = length own -> rounded_up (qofnat (length own) * rate) k -> choice_of (length own) k dims ->
  exists g bits s', food_bits M (FDimensionFlips rate) own other (mkH ga so g) = (Ok bits, s') /\ patched dims own other bits.
Proof.
  intros HL HR (H1 & H2 & H3). destruct (seq_perm _ _ H1 H2) as (rest & HP). destruct (sample_onto _ _ _ HP) as (g & g' & E). exists g.
  rewrite flips_eq. rewrite (rounded_up_det _ _ _ (rounded_up_ceiling (qofnat (length own) * rate)) HR). destruct (Z.ltb_spec k 0); [lia|].
  replace (Z.to_nat k) with (length dims) by lia. cbn [hrng]. rewrite E. eexists. eexists. split; [reflexivity|]. apply patched_by. exact HL.
Qed.
Lemma flips_refused M rate own other s k : rounded_up (qofnat (length own) * rate) k -> (k < 0 \/ Z.of_nat (length own) < k)%Z -> fst (food_bits M (FDimensionFlips rate) own other s) = Raise ValueError.
Proof.
  intros HR HK. rewrite flips_eq. rewrite (rounded_up_det _ _ _ (rounded_up_ceiling (qofnat (length own) * rate)) HR). destruct (Z.ltb_spec k 0); [reflexivity|].
  unfold sample. rewrite seq_length. destruct (Nat.ltb_spec (length own) (Z.to_nat k)); [reflexivity|lia].
Qed.

(* ----- a bee that looks at its own source ----- *)
Lemma patched_same dims own bits : patched dims own own bits -> bits = own.
Proof.
  intros [HL H]. apply nth_error_ext. intros i. destruct (H i) as [H1 H2]. destruct (in_dec Nat.eq_dec i dims); auto.
Qed.
Lemma patched_all own other bits dims : length other = length own -> choice_of (length own) (Z.of_nat (length own)) dims -> patched dims own other bits -> bits = other.
Proof.
  intros HL (H1 & H2 & H3) [HB H]. apply nth_error_ext. intros i. destruct (Nat.lt_ge_cases i (length own)) as [Hi|Hi].
  - apply (H i). destruct (seq_perm _ _ H1 H2) as (rest & HP). pose proof (Permutation_length HP) as E. rewrite seq_length, app_length in E. destruct rest; [|cbn in E; lia].
    rewrite app_nil_r in HP. eapply Permutation_in; [exact HP|]. apply in_seq. lia.
  - assert (E1 : nth_error bits i = None) by (apply nth_error_None; lia). assert (E2 : nth_error other i = None) by (apply nth_error_None; lia). congruence.
Qed.
Lemma toggled_same g own bits : toggled g own own bits -> forall i, nth_error own i = Some false -> nth_error bits i = Some false.
Proof. intros [_ H] i Hi. rewrite (H i false false Hi Hi). rewrite andb_false_r. reflexivity. Qed.
Lemma toggled_between g own other bits : toggled g own other bits -> forall i, nth_error own i = Some false -> nth_error other i = Some false -> nth_error bits i = Some false.
Proof. intros [_ H] i Hi Ho. rewrite (H i false false Hi Ho). rewrite andb_false_r. reflexivity. Qed.

(* ----- one iteration ----- *)
Lemma any_partners fs k (s : hst plain) r s' : rnd (choices (map src fs) k) s = (Ok r, s') ->
  s' = with_r s (later k (hrng s)) /\ length r = k /\ forall j, (j < k)%nat -> exists p, nth_error r j = Some p /\ any_partner (hrng s) fs j p.
Proof.
  rewrite rnd_eq. unfold choices. destruct fs as [|f0 fs].
  { cbn [map]. intros H. destruct (Nat.eqb_spec k 0) as [->|]; [|discriminate]. injection H as <- <-. rewrite later_0. split; [reflexivity|]. split; [reflexivity|intros; lia]. }
  intros H. cbn [map] in H. destruct (draws_later k (hrng s)) as [D1 D2]. pose proof (draws_length k (hrng s)) as D3.
  destruct (draws k (hrng s)) as [qs g]. cbn [fst snd] in *. injection H as <- <-. subst g. split; [reflexivity|]. rewrite map_length. split; [exact D3|].
  intros j Hj. rewrite nth_error_map, (D2 j Hj). cbn [option_map]. eexists. split; [reflexivity|]. unfold any_partner.
  change (src f0 :: map src fs) with (map src (f0 :: fs)). rewrite map_length. set (i := index_of _ _).
  assert (Hi : (i < length (f0 :: fs))%nat) by (apply index_of_lt; cbn; lia). exists (nth i (f0 :: fs) f0). split; [apply nth_error_nth'; exact Hi|]. exact (map_nth src (f0 :: fs) f0 i).
Qed.
Lemma ndiv_num w t q : ndiv w t = Fin q -> exists a, w = Fin a.
Proof.
  destruct w as [a| | |], t as [b| | |]; cbn; try discriminate; eauto; destruct (qlt b 0); discriminate.
Qed.
Lemma shares_inv ws w : ws <> [] -> map (fun x => ndiv x (nsum ws)) ws = map Fin w ->
  exists qs, ws = map Fin qs /\ ~ qsum qs == 0 /\ Forall2 (fun q x => x == q / qsum qs) qs w.
Proof.
  intros HN H. assert (HQ : exists qs, ws = map Fin qs).
  { revert H. generalize (nsum ws). clear HN. revert w. induction ws as [|x ws IH]; intros w t H; [exists []; reflexivity|].
    destruct w as [|y w]; [discriminate|]. cbn [map] in H. injection H as H1 H2. apply ndiv_num in H1 as (a & ->). destruct (IH _ _ H2) as (qs & ->). exists (a :: qs). reflexivity. }
  destruct HQ as (qs & ->). exists qs. split; [reflexivity|]. unfold nsum in H. destruct (nsum_fin qs 0) as (t & ET & Ht). rewrite ET in H.
  assert (HT : ~ t == 0).
  { intros H0. destruct qs as [|q qs]; [contradiction|]. destruct w as [|y w]; [discriminate|]. cbn [map ndiv] in H. injection H as H _.
    destruct (qeq_spec t 0); [|contradiction]. destruct (qeq q 0), (qlt 0 q); discriminate. }
  split; [lra|]. rewrite (ndiv_fin qs t HT) in H. assert (HW : w = map (fun q => q / t) qs).
  { clear - H. revert w H. induction qs as [|q qs IH]; intros [|y w] H; try discriminate; [reflexivity|]. cbn [map] in *. injection H as <- H. f_equal. apply IH. exact H. }
  subst w. assert (G : forall T l, t == T -> Forall2 (fun q x => x == q / T) l (map (fun q => q / t) l)).
  { intros T l HTT. induction l as [|q l IH]; cbn [map]; constructor; auto. rewrite HTT. reflexivity. }
  apply G. lra.
Qed.
Lemma shares_sign qs w : Forall2 (fun q x => x == q / qsum qs) qs w -> Forall (fun x => 0 <= x) w -> ~ qsum qs == 0 ->
  (0 < qsum qs /\ Forall (fun q => 0 <= q) qs) \/ (qsum qs < 0 /\ Forall (fun q => q <= 0) qs).
Proof.
  intros H HP HS. assert (G : forall T l v, Forall2 (fun q x => x == q / T) l v -> Forall (fun x => 0 <= x) v -> ~ T == 0 -> Forall (fun q => exists x, 0 <= x /\ q == x * T) l).
  { clear. intros T l v HF. induction HF as [|q x l v Hx HF IH]; intros HP HT; constructor; inversion HP; subst; auto. exists x. split; [assumption|]. rewrite Hx. field. exact HT. }
  specialize (G _ _ _ H HP HS). clear H. revert G HS. generalize (qsum qs). intros T G HS. destruct (Qlt_le_dec 0 T) as [P|P].
  - left. split; [exact P|]. revert G. apply Forall_impl. intros q (x & Hx & ->). apply Qmult_le_0_compat; lra.
  - right. split; [destruct (Qle_lt_or_eq _ _ P); [assumption|contradiction]|]. revert G. apply Forall_impl. intros q (x & Hx & ->). assert (0 <= x * - T) by (apply Qmult_le_0_compat; lra). lra.
Qed.
Lemma wheel_partners fs k ws (s : hst plain) r s' : length ws = length fs ->
  rnd (choices_num (map src fs) k (map (fun w => ndiv w (nsum ws)) ws)) s = (Ok r, s') ->
  exists qs, ws = map Fin qs /\ ((0 < qsum qs /\ Forall (fun q => 0 <= q) qs) \/ (qsum qs < 0 /\ Forall (fun q => q <= 0) qs)) /\
  s' = with_r s (later k (hrng s)) /\ length r = k /\ forall j, (j < k)%nat -> exists p, nth_error r j = Some p /\ wheel_partner (hrng s) qs fs j p.
Proof.
  intros HL. rewrite rnd_eq. unfold choices_num. destruct (finites _) as [w|] eqn:EF; [|discriminate]. apply finites_spec in EF. intros H.
  destruct (choices_p (map src fs) k w (hrng s)) as [o g] eqn:EC. cbn [fst snd] in H. injection H as -> <-.
  pose proof EC as EP. apply choices_p_picks in EP. pose proof EC as E2. apply choices_p_ok in E2 as (EL & ELw & HP & HS & _).
  assert (HN : ws <> []). { intros ->. destruct w; [|discriminate]. cbn in HS. lra. }
  destruct (shares_inv ws w HN EF) as (qs & -> & HZ & HW). exists qs. split; [reflexivity|]. split; [exact (shares_sign qs w HW HP HZ)|].
  assert (Eg : g = later k (hrng s)).
  { revert EC. unfold choices_p. destruct (_ || _); [discriminate|]. destruct (map src fs); [discriminate|]. destruct (draws_later k (hrng s)) as [D _]. destruct (draws k (hrng s)). cbn in D. subst. intros E; injection E as _ <-. reflexivity. }
  subst g. split; [reflexivity|]. split; [exact EL|]. intros j Hj. destruct (nth_error r j) as [p|] eqn:Ep; [|apply nth_error_None in Ep; lia].
  exists p. split; [reflexivity|]. destruct (Forall2_nth2 _ _ _ _ _ EP Ep) as (u & Hu & i & Hi & Hp). rewrite (proj2 (randoms_later k (hrng s)) j Hj) in Hu. injection Hu as <-.
  rewrite nth_error_map in Hp. destruct (nth_error fs i) as [f|] eqn:Ef; [|discriminate]. injection Hp as <-. exists w, i, f. auto.
Qed.
Section Iteration.
Context {L : learner} (E : env L).
Lemma fitnesses_inv (rs : list nat) : forall (s : hst plain) ws s', wf s -> fitnesses rs s = (Ok ws, s') -> Forall2 (has_fit s) rs ws.
Proof.
  unfold fitnesses. induction rs as [|r rs IH]; intros s ws s' W H; cbn [mmap] in H; [inversion H; constructor|].
  apply bind_inv in H as (f & s1 & H1 & H). apply fitness_inv in H1 as [-> HF]; auto.
  apply bind_inv in H as (fs & s1 & H1 & H). apply IH in H1; auto. inversion H; subst. constructor; auto.
Qed.
Lemma step_parts M c ini fs (s : hst plain) fs' s' : wf s -> Forall (honest E s) (map src fs) -> bee_step M c E ini fs s = (Ok fs', s') ->
  exists p1 s1 fs1 qs p2 s2 fs2,
    length p1 = be_size c /\ (forall j p, nth_error p1 j = Some p -> any_partner (hrng s) fs j p) /\ visited E (be_food c) p1 s s1 fs fs1 /\
    Forall2 (has_fit s1) (map src fs1) (map Fin qs) /\ one_sign qs /\
    length p2 = be_size c /\ (forall j p, nth_error p2 j = Some p -> wheel_partner (hrng s1) qs fs1 j p) /\ visited E (be_food c) p2 s1 s2 fs1 fs2 /\
    scouted_all E (be_limit c) s2 s' fs2 fs'.
Proof.
  intros W HF H. unfold bee_step in H.
  apply bind_inv in H as (o1 & s1 & H1 & H). pose proof (choices_sub _ _ _ _ _ H1) as [HI1 _]. apply any_partners in H1 as (-> & L1 & A1).
  apply bind_inv in H as (fs1 & s2 & H1 & H). set (g1 := later (be_size c) (hrng s)) in *.
  assert (W1 : wf (with_r s g1)) by exact W. assert (HF1 : Forall (honest E (with_r s g1)) (map src fs)) by exact HF.
  pose proof (subset_honest E _ _ _ HF1 HI1) as HO1.
  destruct (phase_spec E _ _ _ _ _ _ _ W1 HF1 HO1 H1) as (M1 & HF2 & HL1 & V1). pose proof (more_wf _ _ M1) as W2.
  apply bind_inv in H as (ws & s3 & H2 & H). pose proof (fitnesses_inv _ _ _ _ W2 H2) as FW. apply fitnesses_same in H2; auto. subst s3. cbv zeta in H.
  apply bind_inv in H as (o2 & s3 & H2 & H). pose proof (choices_num_sub _ _ _ _ _ _ H2) as [HI2 _].
  apply wheel_partners in H2 as (qs & -> & SG & -> & L2 & A2). 2: { pose proof (Forall2_length _ _ _ FW) as HLL. rewrite map_length in HLL. lia. }
  apply bind_inv in H as (fs2 & s3 & H2 & H). set (g2 := later (be_size c) (hrng s2)) in *.
  assert (W2' : wf (with_r s2 g2)) by exact W2. assert (HF2' : Forall (honest E (with_r s2 g2)) (map src fs1)) by exact HF2.
  pose proof (subset_honest E _ _ _ HF2' HI2) as HO2.
  destruct (phase_spec E _ _ _ _ _ _ _ W2' HF2' HO2 H2) as (M2 & HF3 & HL2 & V2). pose proof (more_wf _ _ M2) as W3.
  destruct (scouts_spec E _ _ _ _ _ _ W3 HF3 H) as (M3 & HF4 & HL3 & HS3).
  exists o1, s2, fs1, qs, o2, s3, fs2.
  split; [exact L1|]. split. { intros j p Hp. assert (Hj : (j < be_size c)%nat) by (rewrite <- L1; apply nth_error_Some; congruence). destruct (A1 j Hj) as (p' & Hp' & HA). congruence. }
  split. { split; [exact (more_untouched _ _ M1)|]. split; [exact HL1|exact V1]. }
  split; [exact FW|]. split; [exact SG|]. split; [exact L2|].
  split. { intros j p Hp. assert (Hj : (j < be_size c)%nat) by (rewrite <- L2; apply nth_error_Some; congruence). destruct (A2 j Hj) as (p' & Hp' & HA). congruence. }
  split. { split; [exact (more_untouched _ _ M2)|]. split; [exact HL2|exact V2]. }
  split; [exact (more_untouched _ _ M3)|]. split; [exact HL3|]. split; [exact HF4|exact HS3].
Qed.
End Iteration.
Lemma fair_share qs w i j qi qj wi wj : Forall2 (fun q x => x == q / qsum qs) qs w ->
  nth_error qs i = Some qi -> nth_error qs j = Some qj -> nth_error w i = Some wi -> nth_error w j = Some wj -> qi < qj ->
  (0 < qsum qs -> wi < wj) /\ (qsum qs < 0 -> wj < wi).
Proof.
  intros H Hi Hj Wi Wj HQ. destruct (Forall2_nth2 _ _ _ _ _ H Wi) as (q1 & E1 & Hw1). destruct (Forall2_nth2 _ _ _ _ _ H Wj) as (q2 & E2 & Hw2).
  assert (q1 = qi) by congruence. assert (q2 = qj) by congruence. subst q1 q2. clear H Hi Hj Wi Wj E1 E2. revert Hw1 Hw2. generalize (qsum qs). intros T Hw1 Hw2. split; intros HT.
  - rewrite Hw1, Hw2. apply Qlt_shift_div_l; [exact HT|]. setoid_replace (qi / T * T) with qi by (field; lra). exact HQ.
  - setoid_replace (qi / T) with ((- qi) / (- T)) in Hw1 by (field; lra). setoid_replace (qj / T) with ((- qj) / (- T)) in Hw2 by (field; lra).
    rewrite Hw1, Hw2. apply Qlt_shift_div_l; [lra|]. setoid_replace (- qj / - T * - T) with (- qj) by (field; lra). lra.
Qed.
