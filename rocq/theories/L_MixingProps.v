From Coq Require Import Permutation Sorted.
From Verif Require Import PyNum PyList PyMon PyRng L_Num L_List L_Rng M_Matching S_Matching L_Matching M_Rule S_Rule L_Rule
  L_RuleProps M_Mixing S_Mixing L_Mixing.

Lemma qsum_perm l m : Permutation l m -> qsum l == qsum m.
Proof. induction 1; simpl; try lra. Qed.
Lemma qeq_compat a b c : a == b -> qeq a c = qeq b c.
Proof.
  intros H. destruct (qeq_spec a c), (qeq_spec b c); auto; exfalso;
    match goal with N : ~ _ |- _ => apply N; lra end.
Qed.
Lemma sorted_perm_eq {A} (key : A -> num) l m :
  Permutation l m ->
  StronglySorted (fun a b => nle (key a) (key b) = true) l ->
  StronglySorted (fun a b => nle (key a) (key b) = true) m ->
  ForallOrdPairs (fun a b => nlt (key a) (key b) = true \/ nlt (key b) (key a) = true) l ->
  l = m.
Proof.
  revert m; induction l as [|a l IH]; intros m HP HS1 HS2 HD.
  - apply Permutation_nil in HP. auto.
  - destruct m as [|b m]; [apply Permutation_sym, Permutation_nil in HP; discriminate|].
    inversion HS1 as [|? ? HS1' HF1]; subst. inversion HS2 as [|? ? HS2' HF2]; subst.
    inversion HD as [|? ? HDa HD']; subst.
    assert (Hb : In b (a :: l)) by (eapply Permutation_in; [apply Permutation_sym; exact HP|simpl; auto]).
    assert (Ha : In a (b :: m)) by (eapply Permutation_in; [exact HP|simpl; auto]).
    assert (E : a = b).
    { destruct Hb as [->|Hb]; auto. destruct Ha as [->|Ha]; auto.
      rewrite Forall_forall in HF1, HF2, HDa. pose proof (HF1 b Hb) as H1. pose proof (HF2 a Ha) as H2.
      destruct (HDa b Hb) as [H|H]; apply nle_not_nlt in H1; apply nle_not_nlt in H2; congruence. }
    subst b. f_equal. apply IH; auto. eapply Permutation_cons_inv; eauto.
Qed.

Section Props.
Variable L : learner.
Implicit Types r : rule L.

(* ----- C15 ----- *)
Lemma num_at_perm mx dim rs rs' x : Permutation rs rs' -> num_at L mx dim rs x == num_at L mx dim rs' x.
Proof. intros H. apply qsum_perm, Permutation_map, H. Qed.
Lemma den_at_perm mx dim rs rs' x : Permutation rs rs' -> den_at L mx dim rs x == den_at L mx dim rs' x.
Proof. intros H. apply qsum_perm, Permutation_map, H. Qed.
Lemma predict_one_perm mx dim rs rs' x : Permutation rs rs' -> predict_one L mx dim rs x == predict_one L mx dim rs' x.
Proof.
  intros H. unfold predict_one. rewrite (num_at_perm _ _ _ _ x H).
  rewrite (qeq_compat _ _ 0 (den_at_perm mx dim rs rs' x H)).
  destruct (qeq _ 0); [reflexivity|]. rewrite (den_at_perm mx dim rs rs' x H). reflexivity.
Qed.
Lemma Forall2_map_same {A B} (R : B -> B -> Prop) (f h : A -> B) X :
  (forall x, In x X -> R (f x) (h x)) -> Forall2 R (map f X) (map h X).
Proof. induction X; intros H; simpl; constructor; [apply H; simpl; auto|apply IHX; intros; apply H; simpl; auto]. Qed.
Lemma order_irrelevant mx X rs rs' g dim :
  mfilter mx = KeepAll -> Permutation rs rs' ->
  Forall (fun x => length x = dim) X -> Forall (ready L dim) rs ->
  exists out out', mixing_call L mx X rs false g = (Ok out, g) /\ mixing_call L mx X rs' false g = (Ok out', g) /\ Forall2 Qeq out out'.
Proof.
  intros EF HP HX HR.
  assert (HR' : Forall (ready L dim) rs') by (eapply Permutation_Forall; eauto).
  destruct rs as [|r rs0] eqn:E.
  - apply Permutation_nil in HP. subst rs'. exists (repeat 0 (length X)), (repeat 0 (length X)). repeat split.
    clear. induction X; simpl; constructor; auto. reflexivity.
  - rewrite <- E in *. exists (map (predict_one L mx dim rs) X), (map (predict_one L mx dim rs') X).
    assert (HN' : rs' <> []). { intros ->. apply Permutation_sym, Permutation_nil in HP. subst; discriminate. }
    split; [|split].
    + unfold mixing_call. rewrite E at 1. rewrite EF. simpl. rewrite (mix_fresh L mx X rs dim); auto.
    + unfold mixing_call. destruct rs'; [congruence|]. rewrite EF. simpl. rewrite (mix_fresh L mx X _ dim); auto.
    + apply Forall2_map_same. intros x _. apply predict_one_perm; exact HP.
Qed.
(* with the n-best filter the same holds when no two fitnesses tie *)
Lemma rmap_fitness_ok rs : Forall (fun r => att r <> None) rs -> exists l, rmap (fitness_of L) rs = Ok l.
Proof.
  induction 1 as [|r rs Hr HF [l IH]]; simpl; eauto. unfold fitness_of at 1, get_att.
  destruct (att r); [|congruence]. simpl. rewrite IH. simpl. eauto.
Qed.
Definition fkey r : num := fit_or_nan L r.
Lemma nbest_order_irrelevant n rs rs' g :
  Permutation rs rs' -> Forall (fun r => att r <> None) rs -> Forall (fun r => is_nan (fkey r) = false) rs ->
  ForallOrdPairs (fun a b => nlt (fkey a) (fkey b) = true \/ nlt (fkey b) (fkey a) = true) rs ->
  apply_filter L (NBestFitness n) rs g = apply_filter L (NBestFitness n) rs' g.
Proof.
  intros HP HA HN HD. simpl.
  destruct (rmap_fitness_ok rs HA) as [l Hl].
  destruct (rmap_fitness_ok rs') as [l' Hl']. { eapply Permutation_Forall; eauto. }
  rewrite Hl, Hl'. simpl. f_equal. f_equal. f_equal.
  assert (HN' : Forall (fun r => is_nan (fkey r) = false) rs') by (eapply Permutation_Forall; eauto).
  assert (HPs : Permutation (PyList.sort (fun a b => nlt (fkey a) (fkey b)) rs) rs) by apply sort_perm.
  apply (sorted_perm_eq fkey).
  - etransitivity; [exact HPs|]. etransitivity; [exact HP|]. symmetry. apply sort_perm.
  - apply (sort_sorted fkey); exact HN.
  - apply (sort_sorted fkey); exact HN'.
  - clear - HD HPs. symmetry in HPs.
    assert (HSym : forall l m, Permutation l m ->
      ForallOrdPairs (fun a b => nlt (fkey a) (fkey b) = true \/ nlt (fkey b) (fkey a) = true) l ->
      ForallOrdPairs (fun a b => nlt (fkey a) (fkey b) = true \/ nlt (fkey b) (fkey a) = true) m).
    { clear. induction 1; intros HH; auto.
      - inversion HH; subst. constructor; auto. eapply Permutation_Forall; eauto.
      - inversion HH as [|? ? H1 H2]; subst. inversion H2 as [|? ? H3 H4]; subst.
        inversion H1 as [|? ? H5 H6]; subst. constructor; [constructor; [tauto|assumption]|constructor; assumption]. }
    eapply HSym; eauto.
Qed.
Lemma padding_irrelevant mx genome pool new X cache g :
  length genome = length pool ->
  sol_predict L mx (genome ++ repeat false (length new)) (pool ++ new) X cache g = sol_predict L mx genome pool X cache g.
Proof.
  intros H. unfold sol_predict, subpopulation.
  rewrite !app_length, repeat_length, H, !Nat.eqb_refl. simpl. rewrite compress_pad by exact H. reflexivity.
Qed.

Definition scaled (c : Q) (mx : mixing) : mixing := mkMixing (mfilter mx) (mexp mx) (c * mweight mx).
Lemma tauq_scaled c mx dim r : tauq L (scaled c mx) dim r == c * tauq L mx dim r.
Proof. unfold tauq, scaled; simpl. destruct (att r) as [a|]; [|lra]. destruct (error a); try ring. Qed.
Lemma predict_one_scaled c mx dim rs x :
  ~ c == 0 -> Forall (fun r => 0 <= tauq L mx dim r) rs ->
  predict_one L (scaled c mx) dim rs x == predict_one L mx dim rs x.
Proof.
  intros Hc HF.
  assert (HN : num_at L (scaled c mx) dim rs x == c * num_at L mx dim rs x).
  { clear HF. unfold num_at. induction rs as [|r rs IH]; simpl; [lra|]. rewrite IH, tauq_scaled. ring. }
  assert (HD : den_at L (scaled c mx) dim rs x == c * den_at L mx dim rs x).
  { clear HF HN. unfold den_at. induction rs as [|r rs IH]; simpl; [lra|]. rewrite IH.
    destruct (hits L r x); [rewrite tauq_scaled|]; ring. }
  assert (HZ : den_at L mx dim rs x == 0 -> num_at L mx dim rs x == 0).
  { clear - HF. unfold den_at, num_at. intros H0.
    assert (G : 0 <= qsum (map (fun r => if hits L r x then tauq L mx dim r else 0) rs)).
    { apply qsum_nonneg. apply Forall_map. eapply Forall_impl; [|exact HF]. simpl. intros r Hr. destruct (hits L r x); lra. }
    induction HF as [|r rs Hr HF IH]; simpl in *; [lra|].
    assert (G1 : 0 <= qsum (map (fun r => if hits L r x then tauq L mx dim r else 0) rs)).
    { apply qsum_nonneg. apply Forall_map. eapply Forall_impl; [|exact HF]. simpl. intros r' Hr'. destruct (hits L r' x); lra. }
    destruct (hits L r x).
    - assert (E1 : tauq L mx dim r == 0) by lra. rewrite E1. rewrite IH; lra.
    - rewrite IH; lra. }
  unfold predict_one. rewrite HN.
  destruct (qeq_spec (den_at L (scaled c mx) dim rs x) 0) as [E1|E1]; destruct (qeq_spec (den_at L mx dim rs x) 0) as [E2|E2].
  - rewrite (HZ E2). unfold Qdiv; ring.
  - exfalso. rewrite HD in E1. apply Qmult_integral in E1. tauto.
  - exfalso. apply E1. rewrite HD, E2. ring.
  - rewrite HD. field. auto.
Qed.
Lemma weight_irrelevant c mx X rs g rs' g' dim :
  ~ c == 0 -> rs <> [] ->
  Forall (fun x => length x = dim) X -> apply_filter L (mfilter mx) rs g = (Ok rs', g') -> Forall (ready L dim) rs' ->
  (forall r w, In r rs' -> has_weight L mx dim r w -> 0 <= w) ->
  exists out out', mixing_call L mx X rs false g = (Ok out, g') /\ mixing_call L (scaled c mx) X rs false g = (Ok out', g') /\ Forall2 Qeq out' out.
Proof.
  intros Hc HN HX HF HR HW.
  exists (map (predict_one L mx dim rs') X), (map (predict_one L (scaled c mx) dim rs') X). split; [|split].
  - unfold mixing_call. destruct rs; [congruence|]. rewrite HF. f_equal. apply mix_fresh; assumption.
  - unfold mixing_call. destruct rs; [congruence|]. simpl mfilter. rewrite HF. f_equal. apply mix_fresh; assumption.
  - apply Forall2_map_same. intros x _. apply predict_one_scaled; auto.
    rewrite Forall_forall in *. intros r Hr. apply (HW r); auto.
    apply (ready_vote L mx dim r (repeat 0 dim) (HR r Hr) (repeat_length _ _)).
Qed.

(* ----- C16 ----- *)
Lemma nbest_spec n rs g :
  (0 < n)%nat -> Forall (fun r => exists a, att r = Some a /\ is_nan (fitness a) = false) rs ->
  exists kept dropped, apply_filter L (NBestFitness n) rs g = (Ok kept, g) /\ Permutation rs (dropped ++ kept) /\ length kept = Nat.min n (length rs) /\ forall k d ak ad, In k kept -> In d dropped -> att k = Some ak -> att d = Some ad ->
      nlt (fitness ak) (fitness ad) = false /\ nle (fitness ad) (fitness ak) = true.
Proof.
  intros Hn HF.
  destruct (rmap_fitness_ok rs) as [l Hl].
  { eapply Forall_impl; [|exact HF]. intros r (a & Ha & _). congruence. }
  set (srt := PyList.sort (fun a b => nlt (fkey a) (fkey b)) rs).
  exists (last_n n srt), (firstn (length srt - n) srt).
  split; [simpl; rewrite Hl; reflexivity|].
  assert (HLs : length srt = length rs) by apply sort_length.
  assert (HE : last_n n srt = skipn (length srt - n) srt).
  { unfold last_n. destruct (Nat.eqb_spec n 0); [lia|reflexivity]. }
  split; [rewrite HE, firstn_skipn; symmetry; apply sort_perm|].
  split; [rewrite last_n_length by exact Hn; rewrite HLs; reflexivity|].
  intros k d ak ad Hk Hd Hak Had.
  assert (HS : StronglySorted (fun a b => nle (fkey a) (fkey b) = true) srt).
  { apply (sort_sorted fkey). eapply Forall_impl; [|exact HF]. intros r (a & Ha & Hna). unfold fkey, fit_or_nan. rewrite Ha. exact Hna. }
  rewrite HE in Hk. pose proof (sorted_firstn_skipn _ _ _ HS d k Hd Hk) as H.
  unfold fkey, fit_or_nan in H. rewrite Hak, Had in H. split; [apply nle_not_nlt; exact H|exact H].
Qed.
End Props.

Definition fitted_rule (lo hi e f : Q) (mdl : Q) : rule mean_learner :=
  @mkRule mean_learner (mkMatching OrderedBound [(lo, hi)]) (Some mdl) (Some (mkAtts true (Fin e) (Fin f) 1 [mdl] [true])).
Lemma fitted_rule_ready lo hi e f mdl : 0 < e -> ready mean_learner 1 (fitted_rule lo hi e f mdl).
Proof. intros He. split; [reflexivity|]. split; [|eexists; reflexivity]. eexists. split; [reflexivity|]. right. exists e. split; [reflexivity|exact He]. Qed.
(* fitted on samples it does not match; the same after an earlier training *)
Definition no_match (lo hi : Q) : rule mean_learner := @mkRule mean_learner (mkMatching OrderedBound [(lo, hi)]) None (Some (unmatched [false; false])).
Definition outgrown (lo hi : Q) : rule mean_learner := @mkRule mean_learner (mkMatching OrderedBound [(lo, hi)]) (Some 3) (Some (unmatched [false; false])).
Lemma no_match_untrained lo hi : untrained mean_learner 1 (no_match lo hi).
Proof. split; [reflexivity|]. split; [|reflexivity]. eexists. split; [reflexivity|]. left. reflexivity. Qed.
Lemma outgrown_ready lo hi : ready mean_learner 1 (outgrown lo hi).
Proof. split; [reflexivity|]. split; [|eexists; reflexivity]. eexists. split; [reflexivity|]. left. reflexivity. Qed.
Lemma no_match_covers lo hi v : lo <= v -> v <= hi -> covers (cond (no_match lo hi)) [v].
Proof. intros H1 H2. repeat constructor; assumption. Qed.
Lemma no_match_outside lo hi X : Forall (fun x => exists v, x = [v] /\ v < lo) X -> forall x, In x X -> ~ covers (cond (no_match lo hi)) x.
Proof.
  intros HX x HI HC. rewrite Forall_forall in HX. destruct (HX x HI) as (v & -> & Hv). inversion HC as [|? ? ? ? H1]; subst. cbn in H1. lra.
Qed.
Lemma nbest_zero_keeps_all : exists rs g,
  rs <> [] /\ apply_filter mean_learner (NBestFitness 0) rs g = (Ok rs, g).
Proof.
  exists [fitted_rule 0 1 1 1 1; fitted_rule 0 1 1 2 2], (mkRng (fun _ => 0) 0). split; [discriminate|reflexivity].
Qed.
Lemma nbest_order_matters : exists mx X rs rs' g out out',
  mfilter mx = NBestFitness 1 /\ Permutation rs rs' /\ Forall (ready mean_learner 1) rs /\ mixing_call mean_learner mx X rs false g = (Ok out, g) /\ mixing_call mean_learner mx X rs' false g = (Ok out', g) /\ ~ Forall2 Qeq out out'.
Proof.
  exists (mkMixing (NBestFitness 1) ExpAsIs 1), [[0]],
    [fitted_rule 0 1 1 1 1; fitted_rule 0 1 1 1 2], [fitted_rule 0 1 1 1 2; fitted_rule 0 1 1 1 1], (mkRng (fun _ => 0) 0).
  eexists; eexists. split; [reflexivity|]. split; [apply perm_swap|].
  split; [repeat constructor; apply fitted_rule_ready; reflexivity|].
  split; [vm_compute; reflexivity|]. split; [vm_compute; reflexivity|].
  intros H. inversion H as [|? ? ? ? H1 _]; subst. discriminate H1.
Qed.

(* ----- C17 ----- *)
Section Measure.
Variable L : learner.
Lemma sol_fit_mismatch mx sfit genome (pool : list (rule L)) X y g :
  length genome <> length pool -> sol_fit L mx sfit genome pool X y g = (Raise AssertionError, g).
Proof.
  intros H. unfold sol_fit, sol_predict, subpopulation, assert_. apply Nat.eqb_neq in H. rewrite H. reflexivity.
Qed.
Lemma sol_predict_mismatch mx genome (pool : list (rule L)) X c g :
  length genome <> length pool -> sol_predict L mx genome pool X c g = (Raise AssertionError, g).
Proof.
  intros H. unfold sol_predict, subpopulation, assert_. apply Nat.eqb_neq in H. rewrite H. reflexivity.
Qed.
(* truthful rules never make fit fail *)
Lemma truthful_ready m X y r :
  Forall (fun x => length x = length (bnd m)) X ->
  truthful L m X y r -> (exists x, In x X /\ covers m x) -> ready L (length (bnd m)) r.
Proof.
  intros HX [Hc (a & Ha & HFl & H0 & H1)] (x & Hx & Hcx). split; [rewrite Hc; reflexivity|].
  assert (HN : compress X (match_set a) <> []).
  { intros HE.
    assert (HLm : length (match_set a) = length X) by (symmetry; eapply Forall2_len; exact HFl).
    apply (existsb_compress X _ HLm) in HE.
    clear - HE HFl Hx Hcx. induction HFl as [|x0 f X fl Hf HFl IH]; simpl in *; [contradiction|].
    apply orb_false_iff in HE. destruct HE as [Hf0 HE]. destruct Hx as [->|Hx]; [|auto].
    apply Hf in Hcx. congruence. }
  destruct (H1 HN) as (_ & Hm & _ & _ & e & He & _ & _ & Hp & _).
  split; [exists a; split; auto; right; exists e; split; auto; lra|]. eauto.
Qed.
Lemma truthful_heard m X y r :
  Forall (fun x => length x = length (bnd m)) X -> truthful L m X y r -> ready L (length (bnd m)) r \/ unheard L (length (bnd m)) X r.
Proof.
  intros HX HT. destruct (existsb (hits L r) X) eqn:E.
  - left. apply existsb_exists in E. destruct E as (x & HI & HH). apply (truthful_ready m X y); auto. exists x. split; auto.
    rewrite <- (t_cond _ _ _ _ _ HT). apply hits_covers; auto. rewrite (t_cond _ _ _ _ _ HT). rewrite Forall_forall in HX. symmetry. auto.
  - assert (HC : forall x, In x X -> ~ covers (cond r) x).
    { intros x HI HC. assert (existsb (hits L r) X = true); [|congruence]. apply existsb_exists. exists x. split; auto.
      apply hits_covers; auto. rewrite (t_cond _ _ _ _ _ HT). rewrite Forall_forall in HX. symmetry. auto. }
    destruct HT as [Hc (a & Ha & HFl & H0 & H1)].
    assert (HE : has_error L r).
    { exists a. split; [exact Ha|]. destruct (compress X (match_set a)) eqn:EC.
      - left. apply H0. reflexivity.
      - right. destruct H1 as (_ & _ & _ & _ & e & He & _ & _ & Hp & _); [discriminate|]. exists e. split; auto. lra. }
    destruct (rmodel r) as [mdl|] eqn:EM.
    + left. split; [rewrite Hc; reflexivity|]. split; eauto.
    + right. split; [|exact HC]. split; [rewrite Hc; reflexivity|]. split; auto.
Qed.
Lemma apply_filter_nil f g rs' g' : apply_filter L f [] g = (Ok rs', g') -> g' = g.
Proof. destruct f; simpl; intros H; inversion H; reflexivity. Qed.
Lemma sol_fit_spec mx sfit genome pool X y g dim rs' g' :
  length genome = length pool -> length y = length X -> X <> [] ->
  Forall (fun x => length x = dim) X ->
  Forall (fun r => truthful L (cond r) X y r /\ length (bnd (cond r)) = dim) pool ->
  apply_filter L (mfilter mx) (compress pool genome) g = (Ok rs', g') ->
  exists p a, sol_predict L mx genome pool X false g = (Ok p, g') /\
    sol_fit L mx sfit genome pool X y g = (Ok a, g') /\
    length p = length X /\
    mean_squared y p <= serror a /\ (1#10000) <= serror a /\ (serror a == mean_squared y p \/ serror a == 1#10000) /\
    scomplexity a = length (compress pool genome) /\ sinput_size a = length genome /\
    sfitness a = sfit (serror a) (scomplexity a) (sinput_size a).
Proof.
  intros HG Hy HX0 HX HP HK.
  set (rs := compress pool genome) in *.
  assert (HPs : Forall (fun r => truthful L (cond r) X y r /\ length (bnd (cond r)) = dim) rs).
  { rewrite Forall_forall in *. intros r Hr. apply HP. eapply compress_In; exact Hr. }
  assert (HC : mixing_call L mx X rs true g = mixing_call L mx X rs false g).
  { apply (cache_agrees L mx X y); auto. eapply Forall_impl; [|exact HPs]. simpl. intros r (H1 & H2). split; auto. rewrite H2. exact HX. }
  assert (HR : Forall (fun r => ready L dim r \/ unheard L dim X r) rs').
  { apply filter_incl in HK. rewrite Forall_forall in HPs |- *. intros r Hr. destruct (HPs r (HK r Hr)) as (H1 & H2).
    rewrite <- H2. apply (truthful_heard (cond r) X y); auto. rewrite H2. exact HX. }
  assert (HE : exists p, mixing_call L mx X rs false g = (Ok p, g') /\ length p = length X).
  { destruct rs as [|r0 rs0] eqn:E.
    - apply apply_filter_nil in HK. subst g'. exists (repeat 0 (length X)). split; [reflexivity|apply repeat_length].
    - rewrite <- E in *. destruct (mixing_call_silent L mx X rs g rs' g' dim HX ltac:(rewrite E; discriminate) HK HR) as (out & HO & HF).
      exists out. split; auto. symmetry. eapply Forall2_len; exact HF. }
  destruct HE as (p & Hp & HLp).
  assert (HS : subpopulation L genome pool = Ok rs).
  { unfold subpopulation. rewrite HG, Nat.eqb_refl. reflexivity. }
  exists p. eexists. split; [unfold sol_predict; rewrite HS; exact Hp|].
  split.
  { unfold sol_fit, sol_predict. rewrite HS, HC, Hp. rewrite Hy, HLp, Nat.eqb_refl. simpl.
    destruct (Nat.eqb_spec (length X) 0) as [E0|E0]; [destruct X; [congruence|discriminate]|]. reflexivity. }
  simpl. destruct (floor_error_spec (mse y p)) as (H1 & H2 & H3).
  split; [exact HLp|]. split; [rewrite <- mse_mean; exact H1|]. split; [exact H2|].
  split; [rewrite <- mse_mean; exact H3|]. split; [apply count_true_compress; exact HG|]. split; reflexivity.
Qed.
End Measure.

Lemma nbest_order_irrelevant_att (L : learner) n (rs rs' : list (rule L)) g :
  Permutation rs rs' ->
  Forall (fun r => exists a, att r = Some a /\ is_nan (fitness a) = false) rs ->
  ForallOrdPairs (fun r1 r2 => forall a1 a2, att r1 = Some a1 -> att r2 = Some a2 ->
    nlt (fitness a1) (fitness a2) = true \/ nlt (fitness a2) (fitness a1) = true) rs ->
  apply_filter L (NBestFitness n) rs g = apply_filter L (NBestFitness n) rs' g.
Proof.
  intros HP HA HD. apply nbest_order_irrelevant; auto.
  - eapply Forall_impl; [|exact HA]. intros r (a & -> & _). discriminate.
  - eapply Forall_impl; [|exact HA]. intros r (a & Ha & Hn). unfold fkey, fit_or_nan. rewrite Ha. exact Hn.
  - clear HP. induction HD as [|r rs Hr HD IH]; constructor.
    + inversion HA as [|? ? (a & Ha & _) HA']; subst. clear - Hr HA' Ha. rewrite Forall_forall in *. intros r2 H2.
      destruct (HA' r2 H2) as (a2 & Ha2 & _). unfold fkey, fit_or_nan. rewrite Ha, Ha2. eapply Hr; eauto.
    + apply IH. inversion HA; auto.
Qed.
Lemma weight_irrelevant_mk (L : learner) c f ec w X rs g rs' g' dim :
  ~ c == 0 -> rs <> [] ->
  Forall (fun x => length x = dim) X -> apply_filter L f rs g = (Ok rs', g') -> Forall (ready L dim) rs' ->
  (forall r v, In r rs' -> has_weight L (mkMixing f ec w) dim r v -> 0 <= v) ->
  exists out out', mixing_call L (mkMixing f ec w) X rs false g = (Ok out, g') /\
    mixing_call L (mkMixing f ec (c * w)) X rs false g = (Ok out', g') /\ Forall2 Qeq out' out.
Proof. intros. apply (weight_irrelevant L c (mkMixing f ec w)) with (rs' := rs') (dim := dim); auto. Qed.
Lemma fresh_fit_truthful (L : learner) m X y : Forall (fun x => length x = length (bnd m)) X /\ length y = length X ->
  let r := snd (rule_fit L (fresh_rule L m) X y) in truthful L (cond r) X y r.
Proof.
  intros H. destruct (L_Rule.fit_fresh_truthful L m X y H) as (r & E & T). rewrite E. cbn [snd].
  rewrite (t_cond _ _ _ _ _ T). exact T.
Qed.
