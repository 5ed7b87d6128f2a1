(* Discovery that always returns. *)
From Coq Require Import Lia Permutation.
From Verif Require Import PyNum PyList PyMon PyRng L_Num L_List L_Rng L_Ranks M_Matching S_Matching M_Rule S_Rule M_RuleGen M_Mixing S_Mixing L_Mixing M_GenomeOps M_Discovery S_Discovery
  L_Discovery L_DiscoveryProps L_Origin L_SasProps M_Fit S_Fit M_Shipped S_Shipped S_Live L_SafeFit L_ShippedFit.
From Coq Require Import Lqa.

Definition goes {S A} (m : St S A) (s : S) (Q : A -> Prop) : Prop := exists a s', m s = (Ok a, s') /\ Q a.
Lemma goes_bind {S A B} (m : St S A) (k : A -> St S B) s (Q : A -> Prop) R :
  goes m s Q -> (forall a s', Q a -> goes (k a) s' R) -> goes (bind m k) s R.
Proof. intros (a & s' & H & HQ) HK. destruct (HK a s' HQ) as (b & s2 & H2 & HR). exists b, s2. rewrite (bind_ok _ _ _ _ _ H). auto. Qed.
Lemma goes_ret {S A} (a : A) (s : S) (Q : A -> Prop) : Q a -> goes (ret a) s Q.
Proof. intros H. exists a, s. auto. Qed.
Lemma goes_lift {S A} (r : res A) (s : S) a (Q : A -> Prop) : r = Ok a -> Q a -> goes (lift r) s Q.
Proof. intros -> H. exists a, s. auto. Qed.
Lemma goes_post {S A} (m : St S A) s (Q R : A -> Prop) : goes m s Q -> (forall a, Q a -> R a) -> goes m s R.
Proof. intros (a & s' & H & HQ) HI. exists a, s'. auto. Qed.
Lemma goes_mmap {S A B} (f : A -> St S B) (P : A -> Prop) (Q : B -> Prop) : (forall a s, P a -> goes (f a) s Q) ->
  forall l s, Forall P l -> goes (mmap f l) s (fun bs => Forall Q bs /\ length bs = length l).
Proof.
  intros HF. induction l as [|a l IH]; intros s H; [apply goes_ret; auto|]. apply Forall_cons_iff in H as [Ha H]. cbn [mmap].
  eapply goes_bind; [apply HF; exact Ha|]. intros b s1 Hb. eapply goes_bind; [apply IH; exact H|]. intros bs s2 [H1 H2]. apply goes_ret. split; [constructor; auto|cbn; lia].
Qed.
Lemma goes_repeat {A} (m : St rng A) (Q : A -> Prop) : (forall s, goes m s Q) -> forall n s, goes (repeat_m n m) s (fun l => Forall Q l /\ length l = n).
Proof.
  intros HF. induction n as [|n IH]; intros s; [apply goes_ret; auto|]. cbn [repeat_m].
  eapply goes_bind; [apply HF|]. intros b s1 Hb. eapply goes_bind; [apply IH|]. intros bs s2 [H1 H2]. apply goes_ret. split; [constructor; auto|cbn; lia].
Qed.
Lemma goes_and {S A} (m : St S A) s (Q R : A -> Prop) : goes m s Q -> (forall a s', m s = (Ok a, s') -> R a) -> goes m s (fun a => Q a /\ R a).
Proof. intros (a & s' & H & HQ) HI. exists a, s'. split; [exact H|]. split; [exact HQ|eapply HI; eauto]. Qed.
Lemma goes_choices {A} (l : list A) k g : l <> [] -> goes (choices l k) g (fun r => length r = k /\ Forall (fun x => In x l) r).
Proof.
  intros H. destruct (proj2 (choices_ok_iff l k g) (or_introl H)) as (r & g' & E). exists r, g'. split; [exact E|]. eapply choices_ok; eauto.
Qed.

(* ----- making and changing conditions ----- *)
Lemma draws_split n g : exists qs g', draws n g = (qs, g') /\ length qs = n.
Proof. pose proof (draws_length n g). destruct (draws n g) as [qs g']. eauto. Qed.
Lemma scale_ok s : 0 <= s -> check_scale s = Ok tt.
Proof. intros H. unfold check_scale. destruct (qlt_spec s 0); [lra|reflexivity]. Qed.
Lemma init_goes i t x g : init_works i t -> goes (init_rule i t x) g (fun m => mt m = t).
Proof.
  intros H. unfold init_rule, goes.
  assert (HB : exists bs g', M_RuleGen.init_bounds i t x g = (Ok bs, g')).
  { unfold M_RuleGen.init_bounds. destruct i as [|[s|s0 s1]|s], t; cbn in H; try contradiction; try (eexists _, _; reflexivity);
      try (rewrite (scale_ok _ H)); try (match type of H with _ /\ _ => destruct H as [H0 H1]; rewrite (scale_ok _ H0), (scale_ok _ H1) end);
      destruct (draws_split (length x) g) as (q0 & g1 & -> & _); destruct (draws_split (length x) g1) as (q1 & g2 & -> & _); eexists _, _; reflexivity. }
  destruct HB as (bs & g' & ->). eexists _, _. split; [reflexivity|reflexivity].
Qed.
Lemma mutate_goes mu m g : mutation_works mu (mt m) -> goes (mutate mu m) g (fun m' => mt m' = mt m).
Proof.
  intros H. unfold mutate, goes.
  assert (HB : exists bs g', noise_bounds mu (mt m) (bnd m) g = (Ok bs, g')).
  { unfold noise_bounds. destruct mu as [[s|s0 s1]|[s|s0 s1]|[s|s0 s1]|[s|s0 s1]|[s|s0 s1]], (mt m); cbn [mutation_works] in H; try contradiction;
      try (rewrite (scale_ok _ H)); try (match type of H with _ /\ _ => destruct H as [H0 H1]; rewrite (scale_ok _ H0), (scale_ok _ H1) end);
      try (destruct (draws_split (2 * length (bnd m)) g) as (q0 & g1 & -> & _); eexists _, _; reflexivity);
      destruct (draws_split (length (bnd m)) g) as (q0 & g1 & -> & _); destruct (draws_split (length (bnd m)) g1) as (q1 & g2 & -> & _); eexists _, _; reflexivity. }
  destruct HB as (bs & g' & ->). eexists _, _. split; [reflexivity|reflexivity].
Qed.
Lemma between a b u : 0 <= a -> 0 <= b -> 0 <= u -> u < 1 -> 0 <= a + (b - a) * u.
Proof. intros. nra. Qed.
Lemma mutate_rule_goes mu m g : rmutation_works mu (mt m) -> goes (mutate_rule mu m) g (fun m' => mt m' = mt m).
Proof.
  destruct mu as [mu|mu low high]; cbn [rmutation_works mutate_rule]; [apply mutate_goes|]. intros [H0 H1].
  unfold goes, sigma_range. destruct (draw g) as [q g1]. apply mutate_goes.
  pose proof (u01_range q) as [HU0 HU1].
  assert (HB : forall a b, 0 <= a -> 0 <= b -> 0 <= uniform_of a b q) by (intros; apply between; assumption).
  destruct mu, (mt m); cbn in *; try contradiction; auto.
Qed.
Lemma constrain_mt c m : mt (constrain c m) = mt m.
Proof. destruct c; unfold constrain, clip, min_range; destruct (mt m) eqn:E; cbn; try rewrite E; cbn; congruence. Qed.

(* ----- predictions of solutions ----- *)
Section Mix.
Variable L : learner.
Lemma rmap_total {A B} (f : A -> res B) l : (forall a, In a l -> exists b, f a = Ok b) -> exists bs, rmap f l = Ok bs.
Proof.
  induction l as [|a l IH]; intros H; [exists []; reflexivity|]. cbn [rmap]. destruct (H a (or_introl eq_refl)) as (b & ->). cbn [rbind].
  destruct IH as (bs & ->); [intros z Hz; apply H; right; exact Hz|]. cbn. eauto.
Qed.
Lemma filter_goes f (rs : list (rule L)) g : match f with RouletteWheel _ => False | _ => True end -> Forall (fun r => exists a, att r = Some a) rs ->
  exists rs' g', apply_filter L f rs g = (Ok rs', g').
Proof.
  intros HW HF. destruct f as [|n|n|n]; cbn [apply_filter]; [eauto| | |contradiction].
  - destruct (rmap_total (fitness_of L) rs) as (fs & ->); [|cbn; eauto]. intros r Hr. rewrite Forall_forall in HF. destruct (HF r Hr) as (a & Ha).
    unfold fitness_of, get_att. rewrite Ha. cbn. eauto.
  - unfold sample. destruct (Nat.ltb_spec (length rs) (Nat.min (length rs) n)); [lia|]. destruct (take_out _ rs g). eauto.
Qed.
(* a rule that matches a training sample is ready for prediction *)
Lemma fitted_ready X y d r : table d X y -> fitted_on X y r -> length (bnd (cond r)) = d -> matches_some X r -> S_Mixing.ready L d r.
Proof.
  intros [HX Hy] [_ (a & Ha & HFl & _ & H1)] HL HM. split; [exact HL|].
  assert (HN : compress X (match_set a) <> []) by (intros E; apply (compress_nil_iff (cond r) X (match_set a) HFl) in E; apply E; exact HM).
  destruct (H1 HN) as (_ & Hm & _ & _ & e & He & _ & _ & Hlow & _).
  split; [exists a; split; auto; right; exists e; split; auto; lra|]. eauto.
Qed.
Lemma call_goes mx X dim (rs : list (rule L)) g : mixing_works mx -> Forall (fun x => length x = dim) X -> Forall (S_Mixing.ready L dim) rs ->
  exists p g', mixing_call L mx X rs false g = (Ok p, g') /\ length p = length X.
Proof.
  intros HW HX HR. unfold mixing_call. destruct rs as [|r0 rs0] eqn:E0; [eexists _, _; split; [reflexivity|apply repeat_length]|]. rewrite <- E0 in *. clear E0.
  destruct (filter_goes (mfilter mx) rs g HW) as (rs' & g' & EF).
  { revert HR. apply Forall_impl. intros r (_ & (a & Ha & _) & _). eauto. }
  rewrite EF. apply filter_incl in EF. rewrite Forall_forall in HR.
  rewrite (mix_map L mx X rs' false).
  - eexists _, _. split; [reflexivity|]. apply map_length.
  - intros r Hr. apply (HR r (EF r Hr)).
  - intros r Hr. destruct (HR r (EF r Hr)) as [HL HA]. apply local_pred_fresh; [split; [reflexivity|exact HA]|]. rewrite HL. exact HX.
Qed.
Lemma cached_goes mx X y d (rs : list (rule L)) g : mixing_works mx -> table d X y ->
  Forall (fun r => fitted_on X y r /\ length (bnd (cond r)) = d /\ matches_some X r) rs ->
  exists p g', mixing_call L mx X rs true g = (Ok p, g') /\ length p = length X.
Proof.
  intros HW HT HF. rewrite (cache_agrees L mx X y).
  - apply (call_goes mx X d); [exact HW|apply HT|]. revert HF. apply Forall_impl. intros r (H1 & H2 & H3). eapply fitted_ready; eauto.
  - apply HT.
  - revert HF. apply Forall_impl. intros r (H1 & H2 & H3). split; [exact H1|]. rewrite H2. apply HT.
Qed.
Lemma sol_fit_goes mx sfit bits pool X y d g : mixing_works mx -> table d X y -> X <> [] -> length bits = length pool ->
  Forall (fun r => fitted_on X y r /\ length (bnd (cond r)) = d /\ matches_some X r) pool ->
  exists a g', sol_fit L mx sfit bits pool X y g = (Ok a, g').
Proof.
  intros HW HT HX HL HF. unfold sol_fit, sol_predict, subpopulation. rewrite HL, Nat.eqb_refl. cbn [assert_ rbind].
  destruct (cached_goes mx X y d (compress pool bits) g HW HT) as (p & g' & -> & Hp).
  { apply Forall_forall. intros r Hr. rewrite Forall_forall in HF. apply HF. eapply compress_In; eauto. }
  destruct HT as [_ Hy]. rewrite Hp, Hy, Nat.eqb_refl. cbn [negb orb]. destruct X; [congruence|]. cbn. eauto.
Qed.
Lemma sol_predict_goes mx bits pool X dim g : mixing_works mx -> Forall (fun x => length x = dim) X -> length bits = length pool -> Forall (S_Mixing.ready L dim) pool ->
  exists p g', sol_predict L mx bits pool X false g = (Ok p, g') /\ length p = length X.
Proof.
  intros HW HX HL HF. unfold sol_predict, subpopulation. rewrite HL, Nat.eqb_refl. cbn [assert_ rbind]. apply (call_goes mx X dim); auto.
  apply Forall_forall. intros r Hr. rewrite Forall_forall in HF. apply HF. eapply compress_In; eauto.
Qed.
End Mix.

(* ----- where rules start ----- *)
Section Disc.
Variable L : learner.
Variable D : denv L.
Variable d : nat.
Hypothesis HT : table d (dX D) (dy D).
Hypothesis HX : dX D <> [].
Notation ok := (L_Discovery.good L D d).
Definition pooled (r : rule L) : Prop := fitted_on (dX D) (dy D) r /\ length (bnd (cond r)) = d /\ matches_some (dX D) r.
Hypothesis HP : Forall pooled (dpool D).
Hypothesis HE : match delite D with Some bits => length bits = length (dpool D) | None => True end.

Lemma uniform_goes n g : goes (uniform_input (dX D) n) g (fun _ => True).
Proof.
  unfold uniform_input. destruct (dX D) as [|x X]; [congruence|]. eapply goes_bind with (Q := fun _ => True); [eapply goes_lift; [reflexivity|exact I]|]. intros bs g1 _.
  revert g1. induction n as [|n IH]; intros g1; [apply goes_ret; exact I|]. eapply goes_bind with (Q := fun _ => True).
  - destruct (draws_split (length bs) g1) as (q & g2 & E & _). unfold goes. rewrite E. eauto.
  - intros a g2 _. eapply goes_bind; [apply IH|]. intros l g3 _. apply goes_ret. exact I.
Qed.
Lemma wheel_goes use ws n g : (forall rs g, rs <> [] -> considered D use rs -> goes (ws rs) g (fun w => length w = length (dX D) /\ Forall (fun q => 0 <= q) w)) ->
  goes (wheel D use ws n) g (fun _ => True).
Proof.
  intros HW. unfold wheel.
  assert (HSub : exists rs, subgroup D use = Ok rs /\ considered D use rs).
  { unfold subgroup, considered. destruct (delite D) as [bits|]; [|eauto]. destruct use; [|eauto]. unfold subpopulation. rewrite HE, Nat.eqb_refl. cbn. eauto. }
  destruct HSub as (rs & HS & HC). eapply goes_bind with (Q := fun r => r = rs); [eapply goes_lift; [exact HS|reflexivity]|]. intros ? g1 ->.
  eapply goes_bind with (Q := fun p => match p with None => True | Some w => length w = length (dX D) /\ distribution w end).
  - destruct rs as [|r rs]; [apply goes_ret; exact I|]. eapply goes_bind; [apply HW; [discriminate|exact HC]|].
    intros w g2 [HL HF]. apply goes_ret. unfold probabilities. destruct (qeq_spec (qsum w) 0) as [E|E]; [exact I|]. rewrite map_length. split; [exact HL|].
    pose proof (qsum_nonneg w HF) as HN. split.
    + rewrite Forall_map. revert HF. apply Forall_impl. intros q Hq. apply Qle_shift_div_l; [|lra]. destruct (Qlt_le_dec 0 (qsum w)); [assumption|]. exfalso. apply E. lra.
    + rewrite qsum_div by exact E. field. exact E.
  - intros [w|] g2 Hp.
    + destruct Hp as (HL & HD1 & HD2). destruct (choices_p_total (dX D) n w g2) as (r & g3 & E); auto. exists r, g3. auto.
    + eapply goes_post; [apply goes_choices; exact HX|]. auto.
Qed.
Lemma considered_pooled use rs : considered D use rs -> Forall pooled rs.
Proof. intros H. apply considered_incl in H. apply Forall_forall. intros r Hr. rewrite Forall_forall in HP. auto. Qed.
Lemma squares_nonneg a b : Forall (fun w => 0 <= w) (map2 (fun x z : Q => (x - z) * (x - z)) a b).
Proof.
  revert b. induction a as [|p a IH]; intros [|z b]; [constructor|constructor|constructor|]. cbn [map2]. constructor; [|apply IH].
  generalize (p - z). intros v. destruct (Qlt_le_dec v 0); nra.
Qed.
Lemma origins_go o n g : (asks o -> (delite D <> None /\ mixing_works (dmix D)) \/ dpool D = []) ->
  goes (origins o D n) g (fun xs => length xs = n /\ Forall (fun x => length x = d) xs).
Proof.
  intros HA. eapply goes_post; [apply (goes_and _ _ (fun _ => True) (fun xs => length xs = n /\ Forall (fun x => length x = d) xs))|intros xs [_ H]; exact H].
  - destruct o as [| |use|use]; cbn [origins].
    + apply uniform_goes.
    + eapply goes_post; [apply goes_choices; exact HX|]. auto.
    + apply wheel_goes. intros rs g1 HN HC.
      assert (HF : Forall (fitted_on (dX D) (dy D)) rs) by (pose proof (considered_pooled _ _ HC) as H; revert H; apply Forall_impl; intros r Hr; apply Hr).
      destruct (weights_spec L D rs HN HF) as (ws & HW & HL & HK). eapply goes_lift; [exact HW|]. split; [exact HL|]. eapply weights_nonneg; eauto.
    + destruct (HA I) as [[HB HM]|HB].
      * apply wheel_goes. intros rs g1 HN HC. unfold squared_weights. destruct (delite D) as [bits|] eqn:EB; [|congruence].
        destruct (sol_predict_goes L (dmix D) (if use then bits else repeat true (length (dpool D))) (dpool D) (dX D) d g1 HM) as (p & g2 & Ep & Hp).
        { apply HT. }
        { destruct use; [exact HE|apply repeat_length]. }
        { revert HP. apply Forall_impl. intros r (H1 & H2 & H3). eapply fitted_ready; eauto. }
        eapply goes_bind with (Q := fun p => length p = length (dX D)); [exists p, g2; split; [exact Ep|exact Hp]|]. intros p' g3 Hp'. destruct HT as [_ Hy]. rewrite Hp', Hy, Nat.eqb_refl. apply goes_ret.
        split; [rewrite map2_length; congruence|apply squares_nonneg].
      * assert (HS : forall rs, considered D use rs -> rs = []).
        { intros rs HC. apply considered_incl in HC. rewrite HB in HC. destruct rs as [|r rs]; [reflexivity|]. destruct (HC r (or_introl eq_refl)). }
        apply wheel_goes. intros rs g1 HN HC. exfalso. apply HN. apply HS. exact HC.
  - intros xs g' H. eapply (origins_len L D d HT); eauto.
Qed.

(* ----- rules ----- *)
Definition kin (t : mtype) (r : rule L) : Prop := ok r /\ mt (cond r) = t.
Lemma new_rule_goes c x g : space_dim d (d_constraint c) -> init_works (d_init c) (d_type c) -> length x = d -> goes (new_rule c D x) g (kin (d_type c)).
Proof.
  intros HS HI HL. unfold new_rule. eapply goes_bind; [apply goes_and; [apply init_goes; exact HI|intros m g' H; exact (init_rule_len _ _ _ _ _ _ H)]|].
  intros m g1 [Ht Hm]. assert (HB : length (bnd (constrain (d_constraint c) m)) = d) by (apply constrain_len; [exact HS|congruence]).
  destruct (fitted_total L D d HT _ HB) as (r & Hr). eapply goes_lift; [exact Hr|]. destruct (fitted_good L D d HT _ _ HB Hr) as [H1 H2].
  split; [exact H1|]. rewrite H2, constrain_mt. exact Ht.
Qed.
Lemma mutant_goes c mu p g t : space_dim d (d_constraint c) -> rmutation_works mu t -> kin t p -> goes (mutant c mu D p) g (kin t).
Proof.
  intros HS HM [HG Ht]. unfold mutant. rewrite <- Ht in HM. eapply goes_bind; [apply goes_and; [apply mutate_rule_goes; exact HM|intros m g' H; exact (mutate_rule_len _ _ _ _ _ H)]|].
  intros m g1 [Ht2 Hm]. assert (HB : length (bnd (constrain (d_constraint c) m)) = d) by (apply constrain_len; [exact HS|rewrite Hm; apply HG]).
  destruct (fitted_total L D d HT _ HB) as (r & Hr). eapply goes_lift; [exact Hr|]. destruct (fitted_good L D d HT _ _ HB Hr) as [H1 H2].
  split; [exact H1|]. rewrite H2, constrain_mt. congruence.
Qed.
Lemma tag_nonempty (rs : list (rule L)) : rs <> [] -> combine (seq 0 (length rs)) rs <> [].
Proof. destruct rs; [congruence|]. cbn. discriminate. Qed.
Lemma front_nonempty {A} (err : A -> num) vol same (rs : list A) : rs <> [] -> exists c, nd_front err vol same rs = Ok c /\ c <> [].
Proof.
  destruct rs as [|r rest]; [congruence|]. intros _. cbn [nd_front]. eexists. split; [reflexivity|].
  assert (H : forall l acc, acc <> [] -> fold_left (nd_step err vol same) l acc <> []).
  { induction l as [|q l IH]; intros acc Ha; cbn [fold_left]; [exact Ha|]. apply IH. apply step_nonempty. exact Ha. }
  apply H. discriminate.
Qed.
Lemma pick_goes s (rs : list (rule L)) n g : s <> RRoulette -> rs <> [] -> goes (pick_rules s rs n) g (fun out => Forall (fun r => In r rs) out /\ length out = Nat.min n (length out) /\ (n <> 0%nat -> out <> [])).
Proof.
  intros HS HN. pose proof (tag_nonempty rs HN) as HTg.
  eapply goes_post; [apply (goes_and _ _ (fun out => (n <> 0%nat -> out <> [])) (fun out => Forall (fun r => In r rs) out /\ (length out <= n)%nat))|].
  - unfold pick_rules. eapply goes_bind with (Q := fun ks => n <> 0%nat -> ks <> []).
    + destruct s; cbn [select_rules]; [|congruence| |].
      * apply goes_ret. intros Hn E. unfold fittest_n in E. apply (f_equal (@length _)) in E. rewrite firstn_length in E.
        rewrite (Permutation_length (sort_desc_perm _ _)) in E. destruct (combine (seq 0 (length rs)) rs); [congruence|]. cbn [length] in E. lia.
      * destruct (front_nonempty (fun k : nat * rule L => rerr (snd k)) (fun k => rule_volume L (snd k)) (fun a b => Nat.eqb (fst a) (fst b)) _ HTg) as (c & Hc & Hcn).
        eapply goes_bind with (Q := fun c => c <> []); [eapply goes_lift; [exact Hc|exact Hcn]|]. intros c' g1 Hc'. eapply goes_post; [apply goes_choices; exact Hc'|].
        intros l [HL _] Hn ->. cbn in HL. lia.
      * eapply goes_post; [apply goes_choices; exact HTg|]. intros l [HL _] Hn ->. cbn in HL. lia.
    + intros ks g1 Hk. apply goes_ret. intros Hn E. apply map_eq_nil in E. exact (Hk Hn E).
  - intros out g' H. eapply pick_in; eauto.
  - intros out (H1 & H2 & H3). split; [exact H2|]. split; [lia|exact H1].
Qed.
Lemma first_goes {A} (l : list A) (g : rng) : l <> [] -> goes (lift (first_of l)) g (fun x => In x l).
Proof. destruct l as [|a l]; [congruence|]. intros _. eapply goes_lift; [reflexivity|left; reflexivity]. Qed.

(* ----- evolution strategy ----- *)
Lemma es_loop_goes c : space_dim d (d_constraint (es_d c)) -> es_works c -> forall n e w g, kin (d_type (es_d c)) e -> Forall (kin (d_type (es_d c))) w ->
  goes (es_loop c D n e w) g (kin (d_type (es_d c))).
Proof.
  intros HS HW. set (t := d_type (es_d c)). induction n as [|n IH]; intros e w g He Hw; cbn [es_loop]; [apply goes_ret; exact He|]. cbv zeta.
  assert (Hp : Forall (kin t) (push (es_delay c) w e)).
  { apply Forall_forall. intros x Hx. apply push_in in Hx as [Hx| ->]; [|exact He]. rewrite Forall_forall in Hw. auto. }
  eapply goes_bind; [apply (goes_repeat _ (kin t)); intros s; apply mutant_goes; [exact HS|apply (esw_mut c HW)|exact He]|].
  intros ks g1 [Hk _]. destruct (filter is_valid ks) as [|v vs] eqn:EV; [apply IH; assumption|].
  assert (HV : Forall (kin t) (v :: vs)). { rewrite <- EV. apply Forall_forall. intros x Hx. apply filter_In in Hx as [Hx _]. rewrite Forall_forall in Hk. auto. }
  assert (HPk : forall rs g, rs <> [] -> Forall (kin t) rs -> goes (let* s := pick_rules (es_sel c) rs 1 in lift (first_of s)) g (kin t)).
  { intros rs g2 HN HF. eapply goes_bind; [apply pick_goes; [apply (esw_sel c HW)|exact HN]|]. intros out g3 (H1 & _ & H2).
    eapply goes_post; [apply first_goes; apply H2; lia|]. intros x Hx. rewrite Forall_forall in H1, HF. auto. }
  eapply goes_bind with (Q := kin t).
  - destruct (es_operator c); [apply HPk| apply HPk| apply HPk|apply goes_ret; exact He]; try assumption; try discriminate.
    apply Forall_app. split; [exact HV|]. constructor; [exact He|constructor].
  - intros e' g2 He'. destruct (es_operator c) eqn:EO; try (apply IH; assumption).
    destruct (settled (es_delay c) (push (es_delay c) w e)) eqn:ES; [|apply IH; assumption].
    destruct (esw_delay c HW EO) as [H0 _]. eapply goes_post; [apply first_goes|intros x Hx; rewrite Forall_forall in Hp; auto].
    unfold push. intros E. apply (f_equal (@length _)) in E. rewrite skipn_length, app_length in E. cbn in E. lia.
Qed.
Lemma accept_goes a r : ok r -> exists b, accept a r (dy D) = Ok b.
Proof.
  intros HG. destruct (good_att L D d r HG) as (t & Ha). pose proof (good_lengths L D d r t HG Ha) as HL. unfold accept, get_att. rewrite Ha. cbn [of_option rbind].
  destruct a as [m|beta]; [eauto|]. destruct (qlt _ _); [eauto|]. destruct HT as [_ Hy]. rewrite HL, Hy, Nat.eqb_refl. cbn. eauto.
Qed.
Lemma filter_invalid_goes a rs : Forall ok rs -> exists out, filter_invalid a (dy D) rs = Ok out.
Proof.
  induction 1 as [|r rs Hr HF IH]; cbn [filter_invalid]; [eauto|]. destruct (accept_goes a r Hr) as (b & ->). destruct IH as (o & ->). cbn. eauto.
Qed.
Lemma es_goes c n kids g : space_dim d (d_constraint (es_d c)) -> es_works c -> (asks (d_origin (es_d c)) -> (delite D <> None /\ mixing_works (dmix D)) \/ dpool D = []) ->
  exists out g', es_optimize c D n kids g = (Ok out, g').
Proof.
  intros HS HW HA. enough (H : goes (es_optimize c D n kids) g (fun _ => True)) by (destruct H as (a & g' & H & _); eauto).
  unfold es_optimize. eapply goes_bind; [apply origins_go; exact HA|]. intros xs g1 [_ Hx].
  eapply goes_bind; [apply (goes_mmap (new_rule (es_d c) D) (fun x => length x = d) (kin (d_type (es_d c)))); [|exact Hx]|].
  { intros x s Hl. apply new_rule_goes; [exact HS|apply (esw_init c HW)|exact Hl]. }
  intros ini g2 [Hi _].
  assert (HR : exists rs, rmap (es_task c D) (combine ini (map kids (seq 0 n))) = Ok rs /\ Forall ok rs).
  { generalize (map kids (seq 0 n)). induction Hi as [|r ini Hr Hi IH]; intros l; [exists []; auto|]. destruct l as [|k l]; [exists []; auto|]. cbn [combine rmap].
    destruct (es_loop_goes c HS HW (es_iter c) r [] k Hr (Forall_nil _)) as (r' & k' & E & [Hr' _]). unfold es_task at 1. cbn [fst snd]. rewrite E. cbn [fst rbind].
    destruct (IH l) as (rs & -> & HF). cbn. eauto. }
  destruct HR as (rs & HR & HF). eapply goes_bind with (Q := Forall ok); [eapply goes_lift; [exact HR|exact HF]|]. intros rs' g3 HF'.
  destruct (filter_invalid_goes (d_accept (es_d c)) rs' HF') as (o & Ho). eapply goes_lift; [exact Ho|exact I].
Qed.
(* ----- random search ----- *)
Lemma roulette_goes (rs : list (rule L)) n g : goes (pick_rules RRoulette rs n) g (fun out => Forall (fun r => In r rs) out).
Proof.
  eapply goes_post; [apply (goes_and _ _ (fun _ => True) (fun out => Forall (fun r => In r rs) out))|intros out [_ H]; exact H].
  - unfold pick_rules. eapply goes_bind with (Q := fun _ => True); [|intros ks g1 _; apply goes_ret; exact I]. cbn [select_rules]. unfold goes.
    set (fs := filter _ _). set (m := match fs with [] => _ | _ => _ end).
    assert (HM : forall x, fst (m g) = Raise x -> x = ValueError).
    { intros x. unfold m. destruct fs as [|k0 ks].
      - unfold choices. destruct (combine _ rs); [destruct (Nat.eqb n 0); cbn; congruence|]. destruct (draws n g). cbn. congruence.
      - unfold choices_num. destruct (finites _); [|cbn; congruence]. unfold choices_p. repeat match goal with |- context [if ?b then _ else _] => destruct b end; try (cbn; congruence).
        all: try (destruct (draws n g); cbn; congruence). }
    destruct (m g) as [[o|x] g'] eqn:E; [eauto|]. rewrite (HM x eq_refl). eauto.
  - intros out g' H. apply pick_in in H as [H _]. exact H.
Qed.
Lemma rs_goes c n g : space_dim d (d_constraint (rs_d c)) -> rs_works c -> (asks (d_origin (rs_d c)) -> (delite D <> None /\ mixing_works (dmix D)) \/ dpool D = []) ->
  exists out g', rs_optimize c D n g = (Ok out, g').
Proof.
  intros HS HW HA. enough (H : goes (rs_optimize c D n) g (fun _ => True)) by (destruct H as (a & g' & H & _); eauto).
  unfold rs_optimize. eapply goes_bind; [apply (goes_repeat _ (Forall ok)); intros s|].
  - unfold rs_one. eapply goes_bind; [apply origins_go; exact HA|]. intros xs g1 [HLx Hx].
    eapply goes_bind; [apply (goes_mmap (new_rule (rs_d c) D) (fun x => length x = d) (kin (d_type (rs_d c)))); [|exact Hx]|].
    { intros x s1 Hl. apply new_rule_goes; [exact HS|apply (rsw_init c HW)|exact Hl]. }
    intros rules g2 [Hr HLr]. assert (HN : rules <> []) by (pose proof (rsw_gen c HW); intros ->; cbn in HLr; lia).
    assert (HIn : forall out, Forall (fun r => In r rules) out -> Forall ok out).
    { intros out. apply Forall_impl. intros r Hin. rewrite Forall_forall in Hr. apply Hr. exact Hin. }
    destruct (rs_sel c) eqn:ES; try (eapply goes_post; [apply pick_goes; [discriminate|exact HN]|]; intros out (H1 & _); apply HIn; exact H1).
    eapply goes_post; [apply roulette_goes|exact HIn].
  - intros out g1 [HF _]. assert (HC : Forall ok (concat out)) by (apply Forall_concat; exact HF).
    destruct (filter_invalid_goes (d_accept (rs_d c)) (concat out) HC) as (o & Ho). eapply goes_lift; [exact Ho|exact I].
Qed.
End Disc.
