(* Self-adapting rates (C27). *)
From Coq Require Import Lia.
From Verif Require Import PyNum PyList PyMon PyRng PyStat L_Num L_List M_Matching M_Rule L_RuleProps M_Mixing M_Solution S_Solution
  L_Heap L_HeapProps L_Safe L_SafeFit M_Composition M_GenomeOps S_GenomeOps L_GenomeOps L_GenomeProps M_GA L_GA L_GAProps M_Saga S_Saga L_Saga L_Ext.

(* ----- saga1 ----- *)
Lemma saga1_keeps c : s1_sane c -> forall L (E : env L) ini pop i, s1_within c i ->
  keeps (K := plain) (fun _ => True) (orun (saga1 c) L E ini pop i) (fun z => s1_within c (snd z)).
Proof.
  intros HS L E ini pop i Hi. cbn [orun saga1]. unfold s1_run.
  apply keeps_seq; [apply keeps_lift; intros; exact I|]. intros _. apply keeps_seq; [apply keeps_fit_all; auto|]. intros pop0.
  apply (keeps_iterate (fun _ => True) _ _ (fun z => s1_within c (snd z))); [auto|]. intros [p r] Hr. cbn [snd] in Hr. unfold s1_step.
  apply keeps_seq; [apply keeps_fitnesses; auto|]. intros fs.
  eapply keeps_bind with (Q := s1_within c); [apply keeps_lift; intros r'; eapply s1_adjust_ok; eauto|]. intros r' Hr'.
  apply keeps_seq; [|intros; apply keeps_ret; auto]. unfold saga_generation.
  apply keeps_seq; [apply keeps_by_fitness; auto|]. intros ranked. cbv zeta.
  apply keeps_seq; [apply keeps_select; auto|]. intros parents.
  apply keeps_seq; [apply keeps_offspring; intros; apply keeps_crossover; auto|]. intros children.
  apply keeps_seq; [eapply keeps_any; apply keeps_mmap; intros; apply keeps_bit_flips; auto|]. intros. apply keeps_fit_all; auto.
Qed.
Lemma saga1_in_range {L} c cc (steps : list (env L * rng)) i g0 st s : s1_sane c -> s1_within c i ->
  compose (saga1 c) cc steps (fresh_comp (saga1 c) i) (mkH [] [] g0) = (Ok st, s) -> s1_within c (cint st).
Proof.
  intros HS Hi HE.
  pose proof (keeps_compose (K := plain) (fun _ => True) I (fun _ _ => I) (saga1 c) (s1_within c) (saga1_keeps c HS) cc steps
    (fresh_comp (saga1 c) i) Hi (mkH [] [] g0)) as H.
  rewrite HE in H. apply H; [constructor|reflexivity].
Qed.
Lemma saga1_direction c fs r r' v : s1_sane c -> s1_within c r -> gdm fs = Ok v -> s1_adjust c fs r = Ok r' ->
  (nlt (Fin (s1_vmax c)) v = true -> r_mut r <= r_mut r' /\ r_cross r' <= r_cross r) /\
  (nlt (Fin (s1_vmax c)) v = false -> nlt v (Fin (s1_vmin c)) = true -> r_mut r' <= r_mut r /\ r_cross r <= r_cross r') /\
  (nlt (Fin (s1_vmax c)) v = false -> nlt v (Fin (s1_vmin c)) = false -> r' = r).
Proof.
  intros (Hm1 & Hc1 & Hm0 & Hc0) [[H1 H2] [H3 H4]] Hv. unfold s1_adjust. rewrite Hv. cbn [rbind].
  assert (Hm : 0 <= r_mut r) by lra. assert (Hc : 0 <= r_cross r) by lra.
  pose proof (qmul_ge _ _ Hm Hm1). pose proof (qdiv_le _ _ Hc Hc1). pose proof (qmul_ge _ _ Hc Hc1). pose proof (qdiv_le _ _ Hm Hm1).
  unfold pydiv. destruct (nlt (Fin (s1_vmax c)) v); [|destruct (nlt v (Fin (s1_vmin c)))].
  - destruct (qeq _ _); [discriminate|]. cbn [rbind]. intros HX; inversion HX; subst r'; cbn [r_mut r_cross].
    split; [intros _|split; discriminate].
    destruct (qmin_spec (s1_mmax c) (r_mut r * s1_mmult c)) as (A1 & A2 & A3).
    destruct (qmax_spec (s1_cmin c) (r_cross r / s1_cmult c)) as (B1 & B2 & B3).
    split; [destruct A3 as [-> | ->]; lra|destruct B3 as [-> | ->]; lra].
  - destruct (qeq _ _); [discriminate|]. cbn [rbind]. intros HX; inversion HX; subst r'; cbn [r_mut r_cross].
    split; [discriminate|]. split; [intros _ _|discriminate].
    destruct (qmax_spec (s1_mmin c) (r_mut r / s1_mmult c)) as (A1 & A2 & A3).
    destruct (qmin_spec (s1_cmax c) (r_cross r * s1_cmult c)) as (B1 & B2 & B3).
    split; [destruct A3 as [-> | ->]; lra|destruct B3 as [-> | ->]; lra].
  - intros HX; inversion HX; subst. split; [discriminate|]. split; [discriminate|reflexivity].
Qed.

(* ----- saga3 ----- *)
Lemma clamp01_within v : within 0 1 (clamp01 v).
Proof.
  unfold clamp01, within. destruct (qmin_spec (qmax v 0) 1) as (A1 & A2 & A3). destruct (qmax_spec v 0) as (B1 & B2 & B3).
  split; auto. destruct A3 as [-> | ->]; lra.
Qed.
Lemma params0_ok : params_ok (ext0 saga_sol).
Proof. split; split; discriminate. Qed.
Lemma keeps_choice2 {T} (P : ext saga_sol -> Prop) (a b : T) (Q : T -> Prop) : Q a -> Q b -> keeps P (rnd (choice1 [a; b])) Q.
Proof.
  intros Ha Hb s I. unfold rnd. destruct (choice1_two a b (hrng s)) as (c & Hc & HD). destruct (choice1 [a; b] (hrng s)) as [r g].
  cbn [fst snd] in *. split; auto. intros x Hx. subst r. inversion Hx; subst. destruct HD as [-> | ->]; auto.
Qed.
Lemma saga3_keeps c : forall L (E : env L) ini pop i, True ->
  keeps (K := saga_sol) params_ok (orun (saga3 c) L E ini pop i) (fun _ => True).
Proof.
  intros L E ini pop [] _. cbn [orun saga3]. unfold s3_run. pose proof params0_ok as P0.
  assert (PC : forall x, params_ok x -> params_ok (ext_copy saga_sol x)) by auto.
  apply keeps_seq; [apply keeps_lift; intros; exact I|]. intros _. apply keeps_seq; [apply keeps_fit_all; auto|]. intros pop0.
  apply keeps_seq; [|intros; apply keeps_ret; auto].
  apply (keeps_iterate (K := saga_sol) params_ok _ _ any); [exact I|]. intros p _. unfold saga_generation.
  apply keeps_seq; [apply keeps_by_fitness; auto|]. intros ranked. cbv zeta.
  apply keeps_seq; [apply keeps_select; auto|]. intros parents. apply keeps_seq.
  { apply keeps_offspring. intros a b. unfold saga_cross.
    eapply keeps_bind; [apply keeps_get_ext; auto|]. intros xa [HA1 HA2]. eapply keeps_bind; [apply keeps_get_ext; auto|]. intros xb [HB1 HB2].
    eapply keeps_bind; [apply (keeps_choice2 _ _ _ (within 0 1)); auto|]. intros cr Hcr.
    eapply keeps_bind; [apply (keeps_choice2 _ _ _ (within 0 1)); auto|]. intros mr Hmr.
    apply keeps_seq; [apply keeps_choice2; exact I|]. intros me. apply keeps_seq; [apply keeps_rnd1|]. intros u.
    eapply keeps_bind with (Q := params_ok).
    { destruct (qlt u (s3_pmut c)); [|apply keeps_ret; split; auto].
      apply keeps_seq; [apply keeps_rnd1|]. intros z1. apply keeps_seq; [apply keeps_rnd1|]. intros z2.
      apply keeps_seq; [apply keeps_choice2; exact I|]. intros me'. apply keeps_ret. split; apply clamp01_within. }
    intros q Hq. apply keeps_seq; [apply keeps_crossover; auto|]. intros child.
    apply keeps_seq; [apply keeps_set_ext; auto|]. intros; apply keeps_ret; exact I. }
  intros children. apply keeps_seq; [|intros; apply keeps_fit_all; auto].
  eapply keeps_any. apply (keeps_mmap _ _ any). intros r. unfold saga_flips. apply keeps_seq; [eapply keeps_any, keeps_get_ext|].
  intros x. apply keeps_bit_flips; auto.
Qed.
Lemma saga3_in_range {L} c cc (steps : list (env L * rng)) g0 r x :
  has_ext (snd (compose (saga3 c) cc steps (fresh_comp (saga3 c) tt) (mkH [] [] g0))) r x -> params_ok x.
Proof.
  apply (all_ext_has (K := saga_sol)).
  exact (proj1 (keeps_compose (K := saga_sol) params_ok params0_ok (fun _ H => H) (saga3 c) (fun _ => True) (saga3_keeps c) cc steps
    (fresh_comp (saga3 c) tt) I (mkH [] [] g0) (Forall_nil _))).
Qed.

(* ----- saga2 ----- *)
Lemma qdiv01 a b : 0 < b -> 0 <= a <= b -> 0 <= a / b <= 1.
Proof.
  intros Hb [H1 H2]. split; [apply Qle_shift_div_l; lra|apply Qle_shift_div_r; lra].
Qed.
Lemma qscale lo hi x : lo <= hi -> 0 <= x <= 1 -> lo <= hi - (hi - lo) * x <= hi.
Proof. intros. split; nra. Qed.
Lemma ndiv_fin a b : ~ b == 0 -> ndiv (Fin a) (Fin b) = Fin (a / b).
Proof. intros H. cbn. apply qeq_false in H. rewrite H. reflexivity. Qed.
Lemma s2_xrate_in_range lo hi mean fmin fmax fa fb :
  lo <= hi -> fmin <= mean <= fmax -> fmin <= fa <= fmax -> fmin <= fb <= fmax ->
  nwithin lo hi (s2_xrate (Fin lo) (Fin hi) (mkFstats (Fin mean) (Fin fmin) (Fin fmax)) (Fin fa) (Fin fb)).
Proof.
  intros HL HM HA HB. unfold s2_xrate. cbn [f_min f_mean f_max].
  destruct (neqb (Fin fmin) (Fin mean)) eqn:E1; cbn [orb]; [exists hi; split; [reflexivity|split; lra]|].
  destruct (neqb (Fin mean) (Fin fmax)) eqn:E2; cbn [orb]; [exists hi; split; [reflexivity|split; lra]|].
  cbn [neqb] in E1, E2. apply qeq_false in E1, E2. unfold nsub. cbn [nadd nneg].
  assert (Hlo : fmin < mean) by (destruct (Qlt_le_dec fmin mean); auto; exfalso; apply E1; lra).
  assert (Hhi : mean < fmax) by (destruct (Qlt_le_dec mean fmax); auto; exfalso; apply E2; lra).
  rewrite (ndiv_fin (fa + fb) 2) by discriminate.
  set (m := (fa + fb) / 2). assert (Hm : fmin <= m <= fmax) by (unfold m; split; [apply Qle_shift_div_l|apply Qle_shift_div_r]; lra).
  cbn [nle nadd nneg]. destruct (qle m mean) eqn:E3; [apply qle_iff in E3|apply qle_false in E3];
    rewrite ndiv_fin by lra; cbn [nmul nneg nadd]; eexists; (split; [reflexivity|]); unfold within.
  - pose proof (qscale lo hi ((mean + - m) / (mean + - fmin)) HL) as H. apply H. apply qdiv01; lra.
  - pose proof (qscale lo hi ((m + - mean) / (fmax + - mean)) HL) as H. apply H. apply qdiv01; lra.
Qed.
Lemma s2_mrate_in_range lo hi mean fmin fmax f : lo <= hi -> mean <= fmax -> f <= fmax ->
  nwithin lo hi (s2_mrate (Fin lo) (Fin hi) (mkFstats (Fin mean) (Fin fmin) (Fin fmax)) (Fin f)).
Proof.
  intros HL HM HF. unfold s2_mrate. cbn [f_mean f_max f_min].
  destruct (neqb (Fin fmax) (Fin mean)) eqn:E1; [exists lo; split; [reflexivity|split; lra]|].
  cbn [neqb nlt] in *. apply qeq_false in E1. destruct (qlt mean f) eqn:E2; [apply qlt_iff in E2|exists hi; split; [reflexivity|split; lra]].
  assert (Hhi : mean < fmax) by (destruct (Qlt_le_dec mean fmax); auto; exfalso; apply E1; lra).
  unfold nsub. cbn [nadd nneg]. rewrite ndiv_fin by lra. cbn [nmul nadd]. eexists. split; [reflexivity|]. unfold within.
  assert (H : 0 <= (fmax + - f) / (fmax + - mean) <= 1) by (apply qdiv01; lra). nra.
Qed.
Lemma s2_rates_in_range c q : s2_cmin c <= s2_cmax c -> s2_mmin c <= s2_mmax c -> 0 <= q <= 1 -> s2_within c (s2_rates c (Fin q)).
Proof.
  intros HC HM HQ. unfold s2_rates, s2_within. cbn [cur_cmin cur_mmax nmul].
  rewrite !ndiv_fin by discriminate. unfold nsub; cbn [nadd nneg]. split; eexists; (split; [reflexivity|]); unfold within.
  - assert (0 <= q * (s2_cmax c - s2_cmin c) / 2 <= s2_cmax c - s2_cmin c)
      by (split; [apply Qle_shift_div_l; nra|apply Qle_shift_div_r; nra]). lra.
  - assert (0 <= q * (s2_mmax c - s2_mmin c) / 2 <= s2_mmax c - s2_mmin c)
      by (split; [apply Qle_shift_div_l; nra|apply Qle_shift_div_r; nra]). lra.
Qed.

(* two unmeasured members 110, 110; fitness 100 per chosen rule *)
Definition by_hundreds : Q -> nat -> nat -> num := fun _ c _ => Fin (qofnat c * 100).
Definition twins (g : rng) : hst plain :=
  run_ops (L := mean_learner) [HNew [true; true; false]; HNew [true; true; false]] (mkH [] [] g).
Lemma twins_built g : built (twins g).
Proof. eexists _, _, g. reflexivity. Qed.
Definition cfg2 : s2cfg := mkS2 2 2 0 SelRandom Uniform (1#1000) (1#10) (1#2) (9#10).
(* first generation: only the last bit of the first child flips; second generation: nothing happens *)
Definition draws2 : list Q :=
  [0; 1; 95#100; 95#100; 99#100; 99#100; 0; 99#100; 99#100; 99#100;
   0; 1; 95#100; 95#100; 99#100; 99#100; 99#100; 99#100; 99#100; 99#100].
Lemma s2_runs {t r0} (s : hst plain) {E : env mean_learner} s0 fs st pop1 s1 fs1 st1 pop2 s2 fs2 st2 pop d vmin vmax sim :
  fit_all E pop s = (Ok pop, s0) -> fitnesses pop s0 = (Ok fs, s0) -> stats fs = Ok st ->
  s2_breed cfg2 E st r0 pop s0 = (Ok pop1, s1) -> fitnesses pop1 s1 = (Ok fs1, s1) -> stats fs1 = Ok st1 ->
  s2_breed cfg2 E st1 r0 pop1 s1 = (Ok pop2, s2) -> fitnesses pop2 s2 = (Ok fs2, s2) -> stats fs2 = Ok st2 ->
  fitnesses pop1 s2 = (Ok fs1, s2) ->
  diversity t (nvar fs) (nvar fs) st2 fs2 = (d, (vmin, vmax)) -> similarity t fs1 fs2 = Ok sim ->
  s2_run t cfg2 _ E ZeroInit pop r0 s = (Ok (pop2, s2_rates cfg2 (nmul d (nsub (Fin 1) sim))), s2).
Proof.
  intros H1 H2 H3 H4 H5 H6 H7 H8 H9 H10 H11 H12. unfold s2_run. cbn [s2_size cfg2 Nat.even assert_].
  rewrite (bind_ok _ _ _ tt s eq_refl). rewrite (bind_ok _ _ _ _ _ H1). rewrite (bind_ok _ _ _ _ _ H2).
  rewrite (bind_ok (lift (stats fs)) _ _ st s0) by (rewrite H3; reflexivity).
  change (s2_iter cfg2) with 2%nat. cbn [iterate].
  assert (HS1 : s2_step t cfg2 E (mkS2s 0 pop st (nvar fs) (nvar fs) r0) s0 = (Ok (mkS2s 1 pop1 st1 (nvar fs) (nvar fs) r0), s1)).
  { unfold s2_step. cbn [z_stats z_rates z_pop z_iter z_vmin z_vmax]. rewrite (bind_ok _ _ _ _ _ H4). rewrite (bind_ok _ _ _ _ _ H5).
    rewrite (bind_ok (lift (stats fs1)) _ _ st1 s1) by (rewrite H6; reflexivity). reflexivity. }
  assert (HS2 : s2_step t cfg2 E (mkS2s 1 pop1 st1 (nvar fs) (nvar fs) r0) s1 =
                (Ok (mkS2s 2 pop2 st2 vmin vmax (s2_rates cfg2 (nmul d (nsub (Fin 1) sim)))), s2)).
  { unfold s2_step. cbn [z_stats z_rates z_pop z_iter z_vmin z_vmax]. rewrite (bind_ok _ _ _ _ _ H7). rewrite (bind_ok _ _ _ _ _ H8).
    rewrite (bind_ok (lift (stats fs2)) _ _ st2 s2) by (rewrite H9; reflexivity). cbn [Nat.eqb]. rewrite H11. rewrite (bind_ok _ _ _ _ _ H10).
    rewrite (bind_ok (lift (similarity t fs1 fs2)) _ _ sim s2) by (rewrite H12; reflexivity). reflexivity. }
  rewrite (bind_ok _ _ _ (mkS2s 2 pop2 st2 vmin vmax (s2_rates cfg2 (nmul d (nsub (Fin 1) sim)))) s2); [reflexivity|].
  rewrite (bind_ok _ _ _ _ _ HS1). rewrite (bind_ok _ _ _ _ _ HS2). reflexivity.
Qed.
Lemma nfin_sub a b : nsub (Fin a) (Fin b) = Fin (a + - b). Proof. reflexivity. Qed.
Definition qs2 : list num := [Fin 300; Fin 200].
Lemma s2_similarity t : trig_ok t -> exists x, similarity t qs2 qs2 = Ok (Fin x) /\ 2 <= x.
Proof.
  intros (HS & _ & HT1 & HT2). unfold similarity. assert (HD : dot qs2 qs2 = Ok (Fin 130000)) by reflexivity.
  rewrite HD. cbn [rbind]. unfold norm. cbn [qs2 map nmul]. unfold nsum. cbn [fold_left nadd].
  set (q := 0 + 300 * 300 + 200 * 200 + t_tiny t).
  assert (Hq : q == 130000 + t_tiny t) by (unfold q; lra).
  destruct (HS q) as (x & -> & Hx1 & Hx2); [rewrite Hq; lra|]. cbn [nadd].
  rewrite ndiv_fin by lra.
  assert (HA : Nat.eqb (length (distinct (qs2 ++ qs2))) 0 = false) by reflexivity. fold qs2. rewrite HA. cbn [nmul].
  assert (HB : length (filter (fun x0 => existsb (neqb x0) (distinct qs2)) (distinct qs2)) = 2%nat) by reflexivity. rewrite HB.
  assert (HC : length (distinct (qs2 ++ qs2)) = 2%nat) by reflexivity. rewrite HC.
  eexists. split; [reflexivity|].
  assert (HX : x <= 1000) by nra.
  assert (H1 : qofnat 2 / qofnat 2 == 1) by reflexivity. rewrite H1, Qmult_1_r. apply Qle_shift_div_l; lra.
Qed.
Definition st2 : fstats := mkFstats (Fin (500#2)) (Fin 200) (Fin 300).
Lemma s2_diversity t : trig_ok t -> exists d vmin vmax, diversity t (Fin (0 # 32)) (Fin (0 # 32)) st2 qs2 = (Fin d, (vmin, vmax)) /\ 0 < d.
Proof.
  intros (_ & HC & _). unfold diversity.
  assert (HV : nvar qs2 = Fin (80000 # 32)) by reflexivity. rewrite HV.
  assert (H1 : nlt (Fin (0 # 32)) (Fin (80000 # 32)) = true) by reflexivity. rewrite H1.
  assert (H2 : nlt (Fin (80000 # 32)) (Fin (0 # 32)) = false) by reflexivity. rewrite H2.
  assert (H3 : neqb (f_max st2) (f_min st2) = false) by reflexivity. rewrite H3. unfold st2. cbn [f_mean f_min f_max].
  rewrite !nfin_sub, !ndiv_fin by discriminate. rewrite nfin_sub.
  match goal with |- context [t_cos t (Fin ?q)] => destruct (HC q) as (x & -> & Hx1 & Hx2) end; [split; reflexivity || discriminate|].
  cbn [nmul]. do 3 eexists. split; [reflexivity|].
  assert (H4 : ((80000 # 32) + - (0 # 32)) / (80000 # 32) == 1) by reflexivity. rewrite H4. lra.
Qed.
Lemma s2_bounds_violated t : trig_ok t ->
  exists E (s : hst plain) pop pop' r s', built s /\ Forall (fun q => exists bits a, shows s q bits a /\ length bits = length (epool E)) pop /\
    s2_cmin cfg2 <= s2_cmax cfg2 /\ s2_mmin cfg2 <= s2_mmax cfg2 /\
    s2_run t cfg2 mean_learner E ZeroInit pop (s2_init cfg2) s = (Ok (pop', r), s') /\
    nlt (cur_cmin r) (Fin (s2_cmin cfg2)) = true /\ nlt (Fin (s2_mmax cfg2)) (cur_mmax r) = true.
Proof.
  intros HT. destruct (s2_similarity t HT) as (x & HX1 & HX2). destruct (s2_diversity t HT) as (d & vmin & vmax & HD1 & HD2).
  exists (count_env by_hundreds), (twins (scripted draws2)), [0; 1]%nat, [4; 5]%nat. do 2 eexists.
  split; [apply twins_built|]. split.
  { repeat constructor; (do 2 eexists; split; [eexists; split; [reflexivity|split; reflexivity]|reflexivity]). }
  split; [discriminate|]. split; [discriminate|]. split.
  - eapply s2_runs; [vm_compute; reflexivity|vm_compute; reflexivity|vm_compute; reflexivity|vm_compute; reflexivity|vm_compute; reflexivity
      |vm_compute; reflexivity|vm_compute; reflexivity|vm_compute; reflexivity|vm_compute; reflexivity|vm_compute; reflexivity| |].
    + exact HD1.
    + exact HX1.
  - unfold s2_rates. rewrite nfin_sub. cbn [nmul cur_cmin cur_mmax]. rewrite !ndiv_fin by discriminate. cbn [nadd nneg nsub nlt].
    assert (HQ : d * (1 + - x) < 0) by nra. set (q := d * (1 + - x)) in *.
    change (s2_cmax cfg2) with (9#10). change (s2_cmin cfg2) with (1#2). change (s2_mmax cfg2) with (1#10). change (s2_mmin cfg2) with (1#1000).
    assert (HA : q * ((9#10) - (1#2)) / 2 < 0) by (apply Qlt_shift_div_r; lra).
    assert (HB : q * ((1#10) - (1#1000)) / 2 < 0) by (apply Qlt_shift_div_r; lra).
    split; apply qlt_iff; lra.
Qed.

(* every member equally fit: 0/0 *)
Definition still : list Q :=
  [0; 1; 95#100; 95#100; 99#100; 99#100; 99#100; 99#100; 99#100; 99#100;
   0; 1; 95#100; 95#100; 99#100; 99#100; 99#100; 99#100; 99#100; 99#100].
Lemma s2_nan_rates t : exists E (s : hst plain) pop pop' s',
  built s /\ Forall (fun q => exists bits a, shows s q bits a /\ length bits = length (epool E)) pop /\
  s2_run t cfg2 mean_learner E ZeroInit pop (s2_init cfg2) s = (Ok (pop', mkRates2 NaN NaN), s').
Proof.
  exists (count_env by_hundreds), (twins (scripted still)), [0; 1]%nat, [4; 5]%nat. eexists.
  split; [apply twins_built|]. split.
  { repeat constructor; (do 2 eexists; split; [eexists; split; [reflexivity|split; reflexivity]|reflexivity]). }
  assert (HD : exists a b, diversity t (Fin (0#32)) (Fin (0#32)) (mkFstats (Fin (400#2)) (Fin 200) (Fin 200)) [Fin 200; Fin 200] = (NaN, (a, b))).
  { do 2 eexists. reflexivity. }
  destruct HD as (a & b & HD).
  assert (HS : exists x, similarity t [Fin 200; Fin 200] [Fin 200; Fin 200] = Ok x) by (eexists; reflexivity).
  destruct HS as (x & HS).
  change (mkRates2 NaN NaN) with (s2_rates cfg2 (nmul NaN (nsub (Fin 1) x))).
  eapply s2_runs; [vm_compute; reflexivity|vm_compute; reflexivity|vm_compute; reflexivity|vm_compute; reflexivity|vm_compute; reflexivity
      |vm_compute; reflexivity|vm_compute; reflexivity|vm_compute; reflexivity|vm_compute; reflexivity|vm_compute; reflexivity| |].
  - exact HD.
  - exact HS.
Qed.

(* parents 110 and 011 beget 111, fitter than anything the statistics know *)
Definition unequal (g : rng) : hst plain :=
  let E := count_env by_hundreds in
  run_ops [HNew [true; true; false]; HNew [false; true; true]; HNew [false; false; false]; HFit 0 E; HFit 1 E; HFit 2 E] (mkH [] [] g).
Lemma unequal_built g : built (unequal g).
Proof. eexists _, _, g. reflexivity. Qed.
Lemma s2_mrate_below_minimum : exists (E : env mean_learner) (s : hst plain) pop fs st a b c s1 s2 f fa fb rate,
  built s /\ Forall (honest E s) pop /\ In a pop /\ In b pop /\ fitnesses pop s = (Ok fs, s) /\ stats fs = Ok st /\
  has_fit s a fa /\ has_fit s b fb /\
  crossover false Uniform (s2_xrate (Fin (s2_cmin cfg2)) (Fin (s2_cmax cfg2)) st fa fb) a b s = (Ok c, s1) /\
  fit E c s1 = (Ok c, s2) /\ has_fit s2 c f /\
  s2_mrate (Fin (s2_mmin cfg2)) (Fin (s2_mmax cfg2)) st f = Fin rate /\ rate < 0 < s2_mmin cfg2.
Proof.
  exists (count_env by_hundreds), (unequal (scripted [0; 0; 0; 99#100])), [0; 1; 2]%nat. do 2 eexists. exists 0%nat, 1%nat, 3%nat. do 6 eexists.
  split; [apply unequal_built|].
  split; [repeat constructor; (eexists _, _, (scripted []), _; split; [eexists; split; [vm_compute; reflexivity|split; vm_compute; reflexivity]|split; [reflexivity|vm_compute; reflexivity]])|].
  split; [left; reflexivity|]. split; [right; left; reflexivity|]. split; [vm_compute; reflexivity|]. split; [vm_compute; reflexivity|].
  split; [do 2 eexists; split; [eexists; split; [vm_compute; reflexivity|split; vm_compute; reflexivity]|vm_compute; reflexivity]|].
  split; [do 2 eexists; split; [eexists; split; [vm_compute; reflexivity|split; vm_compute; reflexivity]|vm_compute; reflexivity]|].
  split; [vm_compute; reflexivity|]. split; [vm_compute; reflexivity|].
  split; [do 2 eexists; split; [eexists; split; [vm_compute; reflexivity|split; vm_compute; reflexivity]|vm_compute; reflexivity]|].
  split; [vm_compute; reflexivity|]. split; reflexivity.
Qed.

(* ----- C50: breeding and the parents ----- *)
Lemma more_ext {K} (s s' : hst K) r x bits a : more s s' -> shows s r bits a -> has_ext s r x -> has_ext s' r x.
Proof.
  intros M HS (o & Ho & <-). apply shows_vw in HS as (y & HS). pose proof (vw_inv _ _ _ _ _ HS) as (o1 & H1 & _ & _ & H2).
  rewrite Ho in H1. injection H1 as <-. pose proof (more_vw _ _ _ _ M HS) as HV. apply vw_inv in HV as (o2 & H3 & _ & _ & H4).
  exists o2. split; congruence.
Qed.
Lemma crossover_keeps {K} both x rate (s : hst K) a b ba aa bb ab :
  built s -> shows s a ba aa -> shows s b bb ab -> length ba = length bb ->
  exists c s', crossover both x rate a b s = (Ok c, s') /\
    forall r bits at_ e, shows s r bits at_ -> has_ext s r e -> shows s' r bits at_ /\ has_ext s' r e.
Proof.
  intros HB Ha Hb HL. apply built_wf in HB. apply shows_vw in Ha as (xa & Ha). apply shows_vw in Hb as (xb & Hb).
  destruct (crossover_eq both x rate s a b _ _ _ _ _ _ HB Ha Hb HL) as (c & s' & bits & ac & xc & HE & M & _).
  exists c, s'. split; [exact HE|]. intros r b0 a0 e HS HX. split; [eapply more_shows; eauto|eapply more_ext; eauto].
Qed.
Lemma bit_flips_keeps {K} rate (s : hst K) r0 b0 a0 : built s -> shows s r0 b0 a0 ->
  exists c s', bit_flips rate r0 s = (Ok c, s') /\
    forall r bits at_ e, shows s r bits at_ -> has_ext s r e -> shows s' r bits at_ /\ has_ext s' r e.
Proof.
  intros HB Ha. apply built_wf in HB. apply shows_vw in Ha as (xa & Ha).
  pose proof (bit_flips_eq rate s r0 _ _ _ HB Ha) as HE. cbv zeta in HE. do 2 eexists. split; [exact HE|].
  assert (M : more s (push (with_r s (snd (randoms (length b0) (hrng s)))) (flip_bits rate (fst (randoms (length b0) (hrng s))) b0) None (ext_copy K xa))).
  { eapply more_trans; [apply more_with_r; exact HB|]. apply more_push. exact HB. }
  intros r b1 a1 e HS HX. split; [eapply more_shows; eauto|eapply more_ext; eauto].
Qed.
(* no recombination (0.95 >= 0.9), no parameter mutation: the first parent is handed on with the second one's mutation rate *)
Definition lovers (g : rng) : hst saga_sol :=
  run_ops (L := mean_learner) [HNew [true; true; false]; HNew [false; true; true];
    HSetExt (K := saga_sol) 1 (mkParams (9#10) (1#2) (NPoint 3))] (mkH [] [] g).
Lemma saga_cross_alters_parent : exists pmut (s s' : hst saga_sol) a b bits at_ p p',
  built s /\ shows s a bits at_ /\ has_ext s a p /\ saga_cross pmut a b s = (Ok a, s') /\
  shows s' a bits at_ /\ has_ext s' a p' /\ ~ p_mut p == p_mut p'.
Proof.
  exists (1#100), (lovers (scripted [0; 1; 0; 99#100; 95#100])). eexists. exists 0%nat, 1%nat. do 4 eexists.
  split; [eexists _, _, _; reflexivity|].
  split; [eexists; split; [vm_compute; reflexivity|split; vm_compute; reflexivity]|].
  split; [eexists; split; [vm_compute; reflexivity|vm_compute; reflexivity]|].
  split; [vm_compute; reflexivity|].
  split; [eexists; split; [vm_compute; reflexivity|split; vm_compute; reflexivity]|].
  split; [eexists; split; [vm_compute; reflexivity|vm_compute; reflexivity]|]. discriminate.
Qed.

(* ----- C23 for the self-adapting variants ----- *)
Section Elitists.
Context {K : skind} {L : learner}.
Variable E : env L.
Hypothesis HD : deterministic (emix E).
Hypothesis HN : forall e k j, is_nan (efit E e k j) = false.
Lemma generation_keeps {T} (m : HSt K T) (out : T -> list nat) size ratio pop (s : hst K) z s' :
  wf s -> Forall (honest E s) pop -> m s = (Ok z, s') ->
  (Forall (good E nobody s) pop -> safe E nobody true m (fun z s' => generation_post E nobody size ratio s pop (out z) s') s) ->
  elitists_kept E size ratio s s' pop (out z).
Proof.
  intros W HH HE HS.
  assert (HG : Forall (good E nobody s) pop) by (eapply Forall_impl; [|exact HH]; intros r; apply honest_good).
  specialize (HS HG). unfold safe in HS. rewrite HE in HS. destruct HS as [G (H1 & H2 & el & new & Hp & Hincl & Hlen & Hnew & Htop)].
  exists el, new. split; [exact Hp|]. split; [apply Htop; apply (no_nan_fits E); auto|]. split; [auto|]. split; [auto|]. split; [exact H2|].
  intros r bits a Hr Hs. destruct G as (_ & _ & _ & _ & G). rewrite Forall_forall in HH.
  destruct (G eq_refl r (HH r (Hincl r Hr))) as [_ HC]. apply core_shows. rewrite HC by exact HD. apply core_shows. exact Hs.
Qed.
End Elitists.
Lemma saga1_elitists {L} (E : env L) c pop r (s : hst plain) z s' :
  deterministic (emix E) -> (forall e k j, is_nan (efit E e k j) = false) ->
  built s -> Forall (honest E s) pop -> s1_step c E (pop, r) s = (Ok z, s') ->
  elitists_kept E (s1_size c) (s1_ratio c) s s' pop (fst z).
Proof.
  intros HD HN HB HH HE. eapply (generation_keeps E HD HN (s1_step c E (pop, r)) fst); eauto; [apply built_wf; auto|].
  intros HG. eapply safe_post; [apply (safe_s1_step E nobody true c (fun _ => True)); auto; apply inv_nobody, built_wf; auto|].
  intros z' s1 _ [_ H]. exact H.
Qed.
Lemma saga2_elitists {L} (E : env L) t c z (s : hst plain) z' s' :
  deterministic (emix E) -> (forall e k j, is_nan (efit E e k j) = false) ->
  built s -> Forall (honest E s) (z_pop z) -> s2_step t c E z s = (Ok z', s') ->
  elitists_kept E (s2_size c) (s2_ratio c) s s' (z_pop z) (z_pop z').
Proof.
  intros HD HN HB HH HE. eapply (generation_keeps E HD HN (s2_step t c E z) z_pop); eauto; [apply built_wf; auto|].
  intros HG. apply safe_s2_step; auto; apply inv_nobody, built_wf; auto.
Qed.
Lemma saga3_elitists {L} (E : env L) c pop (s : hst saga_sol) pop' s' :
  deterministic (emix E) -> (forall e k j, is_nan (efit E e k j) = false) ->
  built s -> Forall (honest E s) pop ->
  saga_generation E (s3_size c) (s3_ratio c) (s3_sel c) (saga_cross (s3_pmut c)) saga_flips pop s = (Ok pop', s') ->
  elitists_kept E (s3_size c) (s3_ratio c) s s' pop pop'.
Proof.
  intros HD HN HB HH HE. eapply (generation_keeps E HD HN _ (fun x => x)); eauto; [apply built_wf; auto|].
  intros HG. apply safe_saga_generation; auto; [apply inv_nobody, built_wf; auto| |].
  - intros. apply safe_saga_cross; auto.
  - intros. apply safe_saga_flips; auto.
Qed.

(* concrete runs, checked by evaluation *)
Definition ran {S A} (r : res A * S) (check : A -> S -> bool) : bool := match r with (Ok a, s) => check a s | _ => false end.
Lemma ran_ok {S A} (r : res A * S) check : ran r check = true -> exists a s, r = (Ok a, s) /\ check a s = true.
Proof. destruct r as [[a|e] s]; [|discriminate]. intros H. eauto. Qed.
