(* Rule discovery: proofs. *)
From Verif Require Import PyNum PyList PyMon PyRng L_Num L_List L_Rng M_Matching S_Matching L_Matching M_Rule S_Rule L_Rule M_RuleGen L_RuleGen PyStat M_Mixing M_GenomeOps M_Discovery S_Discovery.
From Verif Require Import L_SafeFit L_SasProps L_SwarmProps.
From Coq Require Import Lqa.

(* ----- shapes ----- *)
Lemma init_rule_len i t x g m g' : init_rule i t x g = (Ok m, g') -> length (bnd m) = length x.
Proof.
  unfold init_rule, init_bounds. intros H.
  destruct i as [|s|s], t; try (destruct s); cbn beta iota zeta in H; try discriminate;
    repeat match type of H with context [check_scale ?y] => destruct (check_scale y); cbn beta iota zeta in H; [|discriminate] end;
    repeat draws_step; inversion H; subst; cbn [bnd];
    rewrite ?map_length, ?combine_length, ?map2_length; rewrite ?map_length; lia.
Qed.
Lemma constrain_len d c m : space_dim d c -> length (bnd m) = d -> length (bnd (constrain c m)) = d.
Proof.
  destruct c as [s|mr|mr s]; cbn [constrain space_dim]; intros H HL.
  - unfold clip. destruct m as [t bs]; cbn [bnd mt] in *. destruct t; cbn [bnd]; rewrite ?map2_length; congruence.
  - rewrite min_range_length. exact HL.
  - rewrite <- (min_range_length m mr) in HL. destruct (min_range m mr) as [t bs]; unfold clip; cbn [bnd mt] in *. destruct t; cbn [bnd]; rewrite ?map2_length; congruence.
Qed.
Lemma mutate_rule_len mu m g m' g' : mutate_rule mu m g = (Ok m', g') -> length (bnd m') = length (bnd m).
Proof.
  destruct mu as [mu|mu lo hi]; cbn [mutate_rule].
  - intros H. apply mutate_shape in H. apply H.
  - unfold sigma_range. destruct (draw g) as [q g1]. intros H. apply mutate_shape in H. apply H.
Qed.

Lemma repeat_m_all {A} (P : A -> Prop) n (m : St rng A) :
  (forall g a g', m g = (Ok a, g') -> P a) -> forall g l g', repeat_m n m g = (Ok l, g') -> length l = n /\ Forall P l.
Proof.
  intros HP. induction n as [|n IH]; intros g l g' H; cbn [repeat_m] in H.
  - injection H as <- <-. split; [reflexivity|constructor].
  - apply bind_inv in H as (a & g1 & H1 & H). apply bind_inv in H as (as_ & g2 & H2 & H). injection H as <- <-.
    destruct (IH _ _ _ H2) as [HL HF]. split; [cbn; lia|]. constructor; eauto.
Qed.
Lemma rmap_all {A B} (f : A -> res B) (P : A -> Prop) (R : B -> Prop) :
  (forall a b, P a -> f a = Ok b -> R b) -> forall l l', Forall P l -> rmap f l = Ok l' -> length l' = length l /\ Forall R l'.
Proof.
  intros HF. induction l as [|a l IH]; intros l' HP H; cbn [rmap rbind] in H; [injection H as <-; split; [reflexivity|constructor]|].
  destruct (f a) as [b|] eqn:E; [|discriminate]. destruct (rmap f l) as [bs|] eqn:E2; [|discriminate]. injection H as <-.
  inversion HP as [|? ? Pa Pl]; subst. destruct (IH bs Pl eq_refl) as [I1 I2]. split; [cbn; lia|]. constructor; eauto.
Qed.

Section Discovery.
Variable L : learner.
Variable D : denv L.
Variable d : nat.
Hypothesis HT : table d (dX D) (dy D).
Implicit Types r : rule L.

Definition good r : Prop := fitted_on (dX D) (dy D) r /\ length (bnd (cond r)) = d.

Lemma fitted_good m r : length (bnd m) = d -> fitted m (dX D) (dy D) = Ok r -> good r /\ cond r = m.
Proof.
  intros HL H. destruct HT as [HX Hy].
  destruct (fit_fresh_truthful L m (dX D) (dy D)) as (r' & H1 & H2).
  { split; [|exact Hy]. rewrite HL. exact HX. }
  unfold fitted in H. rewrite H1 in H. injection H as <-. pose proof (t_cond _ _ _ _ _ H2) as HC.
  split; [|exact HC]. split; [|congruence]. unfold fitted_on. rewrite HC. exact H2.
Qed.
Lemma fitted_total m : length (bnd m) = d -> exists r, fitted m (dX D) (dy D) = Ok r.
Proof.
  intros HL. destruct HT as [HX Hy]. destruct (fit_fresh_truthful L m (dX D) (dy D)) as (r' & H1 & H2).
  { split; [|exact Hy]. rewrite HL. exact HX. }
  exists r'. unfold fitted. rewrite H1. reflexivity.
Qed.
Lemma new_rule_good c x g r g' : space_dim d (d_constraint c) -> length x = d -> new_rule c D x g = (Ok r, g') -> good r.
Proof.
  intros HS HL H. unfold new_rule in H. apply bind_inv in H as (m & g1 & H1 & H). unfold lift in H. injection H as H _.
  apply init_rule_len in H1. eapply fitted_good; [|exact H]. apply constrain_len; [exact HS|congruence].
Qed.
Lemma mutant_good c mu p g r g' : space_dim d (d_constraint c) -> good p -> mutant c mu D p g = (Ok r, g') -> good r.
Proof.
  intros HS [_ HL] H. unfold mutant in H. apply bind_inv in H as (m & g1 & H1 & H). unfold lift in H. injection H as H _.
  apply mutate_rule_len in H1. eapply fitted_good; [|exact H]. apply constrain_len; [exact HS|congruence].
Qed.

(* ----- what the attributes of such a rule say ----- *)
Lemma good_att r : good r -> exists t, att r = Some t.
Proof. intros [[_ (t & H & _)] _]. eauto. Qed.
Lemma compress_nil_iff m X fl : flags_of m X fl -> (compress X fl = [] <-> ~ exists x, In x X /\ covers m x).
Proof.
  induction 1 as [|x f X fl Hx HF IH]; cbn [compress].
  - split; [intros _ (x & [] & _)|reflexivity].
  - destruct f.
    + split; [discriminate|]. intros H. exfalso. apply H. exists x. split; [left; reflexivity|]. apply Hx. reflexivity.
    + rewrite IH. split; intros H (z & Hz & Hc); apply H.
      * destruct Hz as [<-|Hz]; [apply Hx in Hc; discriminate|eauto].
      * exists z. split; [right; exact Hz|exact Hc].
Qed.
Lemma good_matched r t : good r -> att r = Some t ->
  (matches_some (dX D) r -> is_fitted t = true /\ (exists e, error t = Fin e /\ fitness t = rfitness L (cond r) e) /\ 1 <= experience t /\ compress (dX D) (match_set t) <> []) /\
  (~ matches_some (dX D) r -> is_fitted t = false /\ error t = PInf /\ fitness t = NInf /\ experience t == 0).
Proof.
  intros [[_ (t' & HA & HF & H0 & H1)] _] HA'. assert (t' = t) by congruence. subst t'. clear HA'.
  pose proof (compress_nil_iff _ _ _ HF) as HC. split; intros HM.
  - assert (HN : compress (dX D) (match_set t) <> []) by (rewrite HC; intros HN; apply HN; exact HM).
    destruct (H1 HN) as (A & _ & _ & B & e & E1 & E2 & _). split; [exact A|]. split; [exists e; auto|]. split; [|exact HN].
    rewrite B. destruct (compress (dX D) (match_set t)); [congruence|]. cbn [length].
    change 1 with (inject_Z 1). rewrite <- Zle_Qle. lia.
  - destruct (H0 (proj2 HC HM)) as (A & B & C & E & _). repeat split; auto.
Qed.
Lemma is_valid_iff r : good r -> (is_valid r = true <-> matches_some (dX D) r).
Proof.
  intros HG. destruct (good_att r HG) as (t & HA). destruct (good_matched r t HG HA) as [H1 H0]. unfold is_valid. rewrite HA.
  split.
  - intros H. apply andb_true_iff in H as [_ H]. destruct (existsb (fun b => b) (match_set t)) eqn:E.
    + destruct HG as [[_ (t' & HA' & HF & _)] _]. assert (t' = t) by congruence. subst t'.
      apply existsb_exists in E as (b & Hb & ->). clear -HF Hb. unfold flags_of in HF. unfold matches_some.
      induction HF as [|x f X fl Hx HF IH]; [destruct Hb|]. destruct Hb as [->|Hb].
      * exists x. split; [left; reflexivity|]. apply Hx. reflexivity.
      * destruct (IH Hb) as (z & Hz & Hc). exists z. split; [right; exact Hz|exact Hc].
    + exfalso. assert (HN : ~ matches_some (dX D) r).
      { destruct HG as [[_ (t' & HA' & HF & _)] _]. assert (t' = t) by congruence. subst t'.
        apply (compress_nil_iff _ _ _ HF). clear -HF E. unfold flags_of in HF. revert E. induction HF as [|x f X fl Hx HF IH]; intros E; [reflexivity|].
        cbn [existsb] in E. apply orb_false_iff in E as [-> E]. cbn [compress]. apply IH. exact E. }
      apply qlt_iff in H. destruct (H0 HN) as (_ & _ & _ & HE). lra.
  - intros HM. destruct (H1 HM) as (-> & _ & HE & _). cbn. apply qlt_iff. lra.
Qed.

(* ----- acceptance ----- *)
Lemma good_lengths r t : good r -> att r = Some t -> length (match_set t) = length (dX D).
Proof. intros [[_ (t' & HA & HF & _)] _] HA'. assert (t' = t) by congruence. subst. symmetry. exact (Forall2_len _ _ _ HF). Qed.
Lemma compress_count {A} (l : list A) fl : length fl = length l -> length (compress l fl) = count_true fl.
Proof. revert fl; induction l as [|a l IH]; intros [|f fl] H; try discriminate; [reflexivity|]. cbn [compress count_true]. destruct f; cbn [length]; rewrite IH; cbn in H; lia. Qed.
Lemma accept_passes a r : usable a -> good r -> accept a r (dy D) = Ok true -> passes a (dy D) r /\ matches_some (dX D) r.
Proof.
  intros HU HG H. destruct (good_att r HG) as (t & HA). destruct (good_matched r t HG HA) as [H1 H0].
  pose proof (is_valid_iff r HG) as HV. destruct HT as [HX Hy]. pose proof (good_lengths r t HG HA) as HLm.
  unfold accept, get_att in H. rewrite HA in H. cbn [of_option rbind] in H.
  assert (HM : matches_some (dX D) r).
  { destruct (is_valid r) eqn:EV; [apply HV; reflexivity|]. exfalso.
    assert (HN : ~ matches_some (dX D) r) by (intros HM; apply HV in HM; congruence).
    destruct (H0 HN) as (_ & HE & _ & HX0). destruct a as [m|b]; [rewrite HE in H; destruct m; [discriminate|contradiction|discriminate|discriminate]|].
    destruct (qlt_spec (experience t) 1) as [|HQ]; [discriminate|]. lra. }
  split; [|exact HM]. destruct (H1 HM) as (_ & (e & HE & _) & HXp & HN). exists t, e. split; [exact HA|]. split; [exact HE|].
  destruct a as [m|b].
  - rewrite HE in H. injection H as H. exact H.
  - destruct (qlt_spec (experience t) 1) as [HQ|_]; [lra|]. rewrite HLm, Hy, Nat.eqb_refl in H. cbn [negb] in H.
    rewrite HE in H. injection H as H. set (ly := compress (dy D) (match_set t)) in *.
    assert (Hly : (0 < length ly)%nat).
    { unfold ly. rewrite compress_count by congruence. rewrite <- (compress_count (dX D)) by congruence. destruct (compress (dX D) (match_set t)); [congruence|cbn; lia]. }
    assert (HnZ : 0 < qofnat (length ly)). { unfold qofnat. change 0 with (inject_Z 0). rewrite <- Zlt_Qlt. lia. }
    cbn [usable] in HU. unfold ndiv in H.
    assert (HZ : qeq (qofnat (length ly) * b) 0 = false).
    { destruct (qeq_spec (qofnat (length ly) * b) 0) as [HZ|]; [|reflexivity]. exfalso. apply Qmult_integral in HZ as [HZ|HZ]; [lra|contradiction]. }
    rewrite HZ in H. cbn [nle] in H. apply qle_iff in H. unfold mean_square. fold (qofnat (length ly)).
    setoid_replace (qsum (map (fun v => v * v) ly) / qofnat (length ly) / b) with (qsum (map (fun v => v * v) ly) / (qofnat (length ly) * b)); [exact H|].
    field. split; [exact HU|]. intros E. lra.
Qed.
Lemma filter_invalid_spec a rs : forall out, filter_invalid a (dy D) rs = Ok out ->
  (length out <= length rs)%nat /\ Forall (fun r => In r rs /\ accept a r (dy D) = Ok true) out.
Proof.
  induction rs as [|r rs IH]; intros out H; cbn [filter_invalid] in H; [injection H as <-; split; [auto|constructor]|].
  destruct (accept a r (dy D)) as [ok|] eqn:E; [|discriminate]. cbn [rbind] in H.
  destruct (filter_invalid a (dy D) rs) as [rest|] eqn:E2; [|discriminate]. cbn [rbind] in H. injection H as <-.
  destruct (IH rest eq_refl) as [HL HF].
  assert (HF' : Forall (fun r0 => In r0 (r :: rs) /\ accept a r0 (dy D) = Ok true) rest).
  { revert HF. apply Forall_impl. intros r0 [Hi Ha]. split; [right; exact Hi|exact Ha]. }
  destruct ok; cbn [length]; (split; [lia|]); [|exact HF']. constructor; [|exact HF']. split; [left; reflexivity|exact E].
Qed.
Lemma filter_accepted a rs out : usable a -> Forall good rs -> filter_invalid a (dy D) rs = Ok out ->
  Forall (fun r => fitted_on (dX D) (dy D) r /\ matches_some (dX D) r /\ passes a (dy D) r) out.
Proof.
  intros HU HG H. apply filter_invalid_spec in H as [_ HF]. revert HF. apply Forall_impl. intros r [Hi Ha].
  rewrite Forall_forall in HG. specialize (HG _ Hi). destruct (accept_passes a r HU HG Ha) as [H1 H2]. split; [apply HG|]. split; assumption.
Qed.

(* ----- origins ----- *)
Definition sampled (o : origin) : Prop := o <> UniformInput.
Lemma choices_p_in {A} (l : list A) k w g (out : list A) g' : choices_p l k w g = (Ok out, g') -> length out = k /\ Forall (fun x => In x l) out.
Proof.
  intros H. apply choices_p_ok in H as (H1 & _ & _ & _ & H2). split; [exact H1|]. revert H2. apply Forall_impl.
  intros x (i & p & Hi & _). eapply nth_error_In; eauto.
Qed.
Lemma wheel_in use ws n g xs g' : wheel D use ws n g = (Ok xs, g') -> length xs = n /\ Forall (fun x => In x (dX D)) xs.
Proof.
  unfold wheel. intros H. apply bind_inv in H as (rs & g1 & _ & H). apply bind_inv in H as (p & g2 & _ & H).
  destruct p as [ws'|]; [eapply choices_p_in; eauto|eapply choices_ok; eauto].
Qed.
Lemma origins_in o n g xs g' : sampled o -> origins o D n g = (Ok xs, g') -> length xs = n /\ Forall (fun x => In x (dX D)) xs.
Proof.
  intros HO. destruct o as [| |u|u]; cbn [origins]; intros H; [congruence| | |]; [eapply choices_ok; eauto|eapply wheel_in; eauto|eapply wheel_in; eauto].
Qed.
End Discovery.

(* ----- selecting rules ----- *)
Lemma combine_seq_map_snd {A} (l : list A) : forall n, map snd (combine (seq n (length l)) l) = l.
Proof. induction l as [|a l IH]; intros n; cbn; [reflexivity|]. f_equal. apply IH. Qed.
Lemma combine_seq_in {A} (l : list A) n k : In k (combine (seq n (length l)) l) -> In (snd k) l.
Proof. intros H. rewrite <- (combine_seq_map_snd l n). apply in_map. exact H. Qed.

Section Select.
Variable L : learner.
Implicit Types r : rule L.
Notation tag rs := (combine (seq 0 (length rs)) rs).
Notation kfit := (fun k : nat * rule L => rfit (snd k)).
Notation kerr := (fun k : nat * rule L => rerr (snd k)).
Notation kvol := (fun k : nat * rule L => rule_volume L (snd k)).
Notation ksame := (fun a b : nat * rule L => Nat.eqb (fst a) (fst b)).

Lemma pick_fittest rs n g : Forall (fun r => is_nan (rfit r) = false) rs ->
  exists out rest, pick_rules RFittest rs n g = (Ok out, g) /\ Permutation rs (out ++ rest) /\ length out = Nat.min n (length rs) /\
    StronglySorted (fun a b => nle (rfit b) (rfit a) = true) out /\
    forall a b, In a out -> In b rest -> nle (rfit b) (rfit a) = true.
Proof.
  intros HF. set (ks := sort_desc (fun a b => nlt (kfit a) (kfit b)) (tag rs)).
  exists (map snd (firstn n ks)), (map snd (skipn n ks)). unfold pick_rules, select_rules. split; [reflexivity|].
  assert (HP : Permutation ks (tag rs)) by apply sort_desc_perm.
  assert (HS : StronglySorted (fun a b => nle (kfit b) (kfit a) = true) ks).
  { apply (sort_desc_sorted kfit). apply Forall_forall. intros k Hk. rewrite Forall_forall in HF. apply HF. eapply combine_seq_in; eauto. }
  split; [|split; [|split]].
  - rewrite <- map_app, firstn_skipn. rewrite <- (combine_seq_map_snd rs 0) at 1. apply Permutation_map. symmetry. exact HP.
  - rewrite map_length, firstn_length, (Permutation_length HP), combine_length, seq_length. lia.
  - rewrite <- (firstn_skipn n ks) in HS. clear HP. revert HS. generalize (firstn n ks) as l1, (skipn n ks) as l2. intros l1 l2.
    induction l1 as [|a l1 IH]; cbn; intros HS; [constructor|]. inversion HS as [|? ? H1 H2]; subst. constructor; [apply IH; exact H1|].
    rewrite Forall_map. apply Forall_app in H2. apply H2.
  - intros a b Ha Hb. apply in_map_iff in Ha as (ka & <- & Ha). apply in_map_iff in Hb as (kb & <- & Hb).
    apply (sorted_firstn_skipn _ n ks HS); assumption.
Qed.
Lemma pick_in s rs n g out g' : pick_rules s rs n g = (Ok out, g') -> Forall (fun r => In r rs) out /\ (length out <= n)%nat.
Proof.
  unfold pick_rules. intros H. apply bind_inv in H as (ks & g1 & H & H'). injection H' as <- <-. rewrite map_length, Forall_map.
  assert (HK : Forall (fun k => In k (tag rs)) ks /\ (length ks <= n)%nat).
  { destruct s; cbn [select_rules] in H.
    - injection H as <- <-. unfold fittest_n. split; [|rewrite firstn_length; lia].
      apply Forall_forall. intros k Hk. apply In_firstn in Hk. apply (Permutation_in _ (sort_desc_perm _ _)) in Hk. exact Hk.
    - set (ks' := filter (fun k => negb (neqb (kfit k) NInf)) (tag rs)) in *. 
      destruct ks' as [|k0 ks0] eqn:EK.
      + destruct (choices (tag rs) n g) as [[o|e] g2] eqn:E; [|destruct e; inversion H; subst; split; [constructor|cbn; lia]].
        injection H as <- <-. apply choices_ok in E as [E1 E2]. split; [exact E2|lia].
      + destruct (choices_num (k0 :: ks0) n (map (fun f => ndiv f (nsum (map kfit (k0 :: ks0)))) (map kfit (k0 :: ks0))) g) as [[o|e] g2] eqn:E;
          [|destruct e; inversion H; subst; split; [constructor|cbn; lia]].
        injection H as <- <-. unfold choices_num in E. destruct (finites _) as [qs|]; [|discriminate].
        apply choices_p_in in E as [E1 E2]. split; [|lia]. revert E2. apply Forall_impl. intros k Hk. rewrite <- EK in Hk. apply filter_In in Hk. apply Hk.
    - apply bind_inv in H as (c & g2 & H1 & H). unfold lift in H1. injection H1 as H1 _. apply choices_ok in H as [E1 E2]. split; [|lia].
      revert E2. apply Forall_impl. intros k Hk. unfold nd_front in H1. destruct (tag rs) as [|k0 rest]; [discriminate|]. injection H1 as <-.
      revert Hk. assert (HR : forall l acc, (In k (fold_left (nd_step kerr kvol ksame) l acc)) -> In k acc \/ In k l).
      { clear. assert (HRem : forall x l, In k (remove_first ksame x l) -> In k l).
        { intros x l. induction l as [|y l IH]; cbn; [auto|]. destruct (Nat.eqb _ _); [auto|]. intros [->|H]; [auto|right; auto]. }
        assert (HSc : forall f l i q add, In k (fst (nd_scan kerr kvol ksame f l i q add)) -> In k l).
        { induction f as [|f IH]; intros l i q add; cbn [nd_scan]; [auto|]. destruct (nth_error l i) as [can|]; [|auto].
          destruct (beats _ _ can q); [auto|]. destruct (beats _ _ q can); intros H; apply IH in H; eauto. }
        induction l as [|q l IH]; intros acc H; cbn [fold_left] in H; [auto|]. apply IH in H as [H|H]; [|right; right; exact H].
        unfold nd_step in H. specialize (HSc (length acc) acc 0%nat q false). destruct (nd_scan _ _ _ _ acc 0 q false) as [c add]. cbn [fst] in HSc.
        destruct add; [apply in_app_or in H as [H|[->|[]]]|]; auto. right; left; reflexivity. }
      intros Hk. apply HR in Hk as [[->|[]]|Hk]; [left; reflexivity|right; exact Hk].
    - apply choices_ok in H as [E1 E2]. split; [exact E2|lia]. }
  destruct HK as [HK1 HK2]. split; [|exact HK2]. revert HK1. apply Forall_impl. intros k Hk. eapply combine_seq_in; eauto.
Qed.
End Select.
