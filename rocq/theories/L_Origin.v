(* Rule selection and origins: proofs. *)
From Verif Require Import PyNum PyList PyMon PyRng L_Num L_List L_Rng M_Matching S_Matching L_Matching M_Rule S_Rule L_Rule M_RuleGen L_RuleGen PyStat M_Mixing M_GenomeOps M_Discovery S_Discovery L_Discovery.
From Verif Require Import L_SafeFit L_SasProps L_SwarmProps.
From Coq Require Import Lqa.

Lemma nth_error_nil {A} i : @nth_error A [] i = None.
Proof. destruct i; reflexivity. Qed.

(* ----- non-dominated sort keeps what nobody beats ----- *)
Section Nd.
Context {A : Type} (err : A -> num) (vol : A -> Q) (same : A -> A -> bool) (all : list A).
Hypothesis Hsame : forall a b, In a all -> In b all -> same a b = true -> a = b.
Notation beat := (beats err vol).
Notation scan := (nd_scan err vol same).

Lemma remove_first_incl x l y : In y (remove_first same x l) -> In y l.
Proof. induction l as [|z l IH]; cbn; [auto|]. destruct (same x z); [auto|]. intros [->|H]; auto. Qed.
Lemma remove_first_keeps x l y : In x all -> incl l all -> In y l -> y <> x -> In y (remove_first same x l).
Proof.
  intros Hx. induction l as [|z l IH]; cbn; [auto|]. intros HI Hy HN. destruct (same x z) eqn:E.
  - assert (x = z) by (apply Hsame; auto; apply HI; left; reflexivity). subst z. destruct Hy as [->|Hy]; [congruence|exact Hy].
  - destruct Hy as [->|Hy]; [left; reflexivity|right]. apply IH; auto. intros w Hw. apply HI. right; exact Hw.
Qed.
Lemma scan_incl k : forall l i r add, incl (fst (scan k l i r add)) l.
Proof.
  induction k as [|k IH]; intros l i r add y Hy; cbn [nd_scan] in Hy; [exact Hy|]. destruct (nth_error l i) as [can|]; [|exact Hy].
  destruct (beat can r); [exact Hy|]. destruct (beat r can); apply IH in Hy; [eapply remove_first_incl; eauto|exact Hy].
Qed.
Lemma scan_keeps k : forall l i r add x, incl l all -> In x l -> beat r x = false -> In x (fst (scan k l i r add)).
Proof.
  induction k as [|k IH]; intros l i r add x HI Hx HB; cbn [nd_scan]; [exact Hx|]. destruct (nth_error l i) as [can|] eqn:E; [|exact Hx].
  apply nth_error_In in E. destruct (beat can r); [exact Hx|]. destruct (beat r can) eqn:EB; [|apply IH; auto].
  apply IH; auto; [intros y Hy; apply HI; eapply remove_first_incl; eauto|]. apply remove_first_keeps; auto. intros ->. congruence.
Qed.
Lemma scan_true k : forall l i r, incl l all -> (forall q, In q all -> beat q r = false) -> snd (scan k l i r true) = true.
Proof.
  induction k as [|k IH]; intros l i r HI HB; cbn [nd_scan]; [reflexivity|]. destruct (nth_error l i) as [can|] eqn:E; [|reflexivity].
  apply nth_error_In in E. rewrite HB by auto. destruct (beat r can); apply IH; auto. intros y Hy. apply HI. eapply remove_first_incl; eauto.
Qed.
Lemma scan_adds l r : l <> [] -> incl l all -> (forall q, In q all -> beat q r = false) -> snd (scan (length l) l 0 r false) = true.
Proof.
  destruct l as [|can l]; [congruence|]. intros _ HI HB. cbn [length nd_scan nth_error]. rewrite HB by (apply HI; left; reflexivity).
  destruct (beat r can); apply scan_true; auto. intros y Hy. apply HI. eapply remove_first_incl; eauto.
Qed.
Lemma scan_stop k : forall l i r add c, scan k l i r add = (c, false) -> add = true -> c <> [].
Proof.
  induction k as [|k IH]; intros l i r add c H Ha; cbn [nd_scan] in H; [congruence|]. destruct (nth_error l i) as [can|] eqn:E; [|congruence].
  destruct (beat can r); [injection H as <-; intros ->; rewrite nth_error_nil in E; discriminate|]. destruct (beat r can); eapply IH; eauto.
Qed.
Lemma step_nonempty l r : l <> [] -> nd_step err vol same l r <> [].
Proof.
  intros HN. unfold nd_step. destruct (scan (length l) l 0 r false) as [c add] eqn:E. destruct add; [destruct c; discriminate|].
  destruct l as [|can l]; [congruence|]. cbn [length nd_scan nth_error] in E. destruct (beat can r); [injection E as <-; discriminate|].
  destruct (beat r can); eapply scan_stop; eauto.
Qed.
Lemma step_incl l r y : In y (nd_step err vol same l r) -> In y l \/ y = r.
Proof.
  unfold nd_step. pose proof (scan_incl (length l) l 0 r false) as HI. destruct (scan (length l) l 0 r false) as [c add]. cbn [fst] in HI.
  destruct add; [intros H; apply in_app_or in H as [H|[<-|[]]]; auto|auto].
Qed.
Lemma fold_keeps rest : forall acc x, acc <> [] -> incl acc all -> incl rest all -> (forall q, In q all -> beat q x = false) ->
  In x acc \/ In x rest -> In x (fold_left (nd_step err vol same) rest acc).
Proof.
  induction rest as [|r rest IH]; intros acc x HNe HA HR HB Hx; cbn [fold_left]; [destruct Hx as [Hx|[]]; exact Hx|].
  assert (HA' : incl (nd_step err vol same acc r) all).
  { intros y Hy. apply step_incl in Hy as [Hy| ->]; [auto|apply HR; left; reflexivity]. }
  apply IH; auto; [apply step_nonempty; exact HNe|intros y Hy; apply HR; right; exact Hy|].
  destruct Hx as [Hx|[->|Hx]]; [left|left|right; exact Hx].
  - unfold nd_step. pose proof (scan_keeps (length acc) acc 0 r false x HA Hx (HB r (HR r (or_introl eq_refl)))) as HK.
    destruct (scan (length acc) acc 0 r false) as [c add]. cbn [fst] in HK. destruct add; [apply in_or_app; left; exact HK|exact HK].
  - unfold nd_step. pose proof (scan_adds acc x HNe HA HB) as HK. destruct (scan (length acc) acc 0 x false) as [c add]. cbn [snd] in HK. rewrite HK.
    apply in_or_app. right; left; reflexivity.
Qed.
Lemma front_keeps rest r0 x : all = r0 :: rest -> In x all -> (forall q, In q all -> beat q x = false) ->
  In x (fold_left (nd_step err vol same) rest [r0]).
Proof.
  intros E Hx HB. apply fold_keeps; auto; [discriminate| | |].
  - intros y [<-|[]]. rewrite E. left; reflexivity.
  - intros y Hy. rewrite E. right; exact Hy.
  - rewrite E in Hx. destruct Hx as [<-|Hx]; [left; left; reflexivity|right; exact Hx].
Qed.
End Nd.

Lemma tag_inj {A} (l : list A) : forall n a b, In a (combine (seq n (length l)) l) -> In b (combine (seq n (length l)) l) -> fst a = fst b -> a = b.
Proof.
  induction l as [|x l IH]; intros n a b Ha Hb E; [destruct Ha|]. cbn [length seq combine] in *.
  assert (HGt : forall k, In k (combine (seq (S n) (length l)) l) -> (n < fst k)%nat).
  { intros [i y] Hk. apply in_combine_l in Hk. apply in_seq in Hk. cbn. lia. }
  destruct Ha as [<-|Ha], Hb as [<-|Hb]; auto.
  - apply HGt in Hb. cbn in *. lia.
  - apply HGt in Ha. cbn in *. lia.
  - eapply IH; eauto.
Qed.
Lemma in_tag {A} (l : list A) x : In x l -> forall n, exists i, In (i, x) (combine (seq n (length l)) l).
Proof.
  induction l as [|y l IH]; intros Hx n; [destruct Hx|]. cbn [length seq combine]. destruct Hx as [->|Hx]; [exists n; left; reflexivity|].
  destruct (IH Hx (S n)) as (i & Hi). exists i. right; exact Hi.
Qed.
Lemma beats_iff (L : learner) (a b : nat * rule L) :
  beats (fun k : nat * rule L => rerr (snd k)) (fun k => rule_volume L (snd k)) a b = true <-> better_in_both (snd a) (snd b).
Proof.
  unfold beats, rerr, rule_volume, better_in_both. rewrite andb_true_iff, qlt_iff. split.
  - intros [H1 H2]. destruct (att (snd a)) as [s|]; [|discriminate]. destruct (att (snd b)) as [t|]; [|destruct (error s); discriminate].
    exists s, t. auto.
  - intros (s & t & -> & -> & H1 & H2). auto.
Qed.
Lemma nd_may_choose (L : learner) (rs : list (rule L)) r : In r rs -> (forall q, In q rs -> ~ better_in_both q r) ->
  exists g g', pick_rules RNondominated rs 1 g = (Ok [r], g').
Proof.
  intros Hr HB. destruct (in_tag rs r Hr 0) as (i & Hi).
  set (all := combine (seq 0 (length rs)) rs) in *. set (err := fun k : nat * rule L => rerr (snd k)). set (vol := fun k : nat * rule L => rule_volume L (snd k)).
  set (same := fun a b : nat * rule L => Nat.eqb (fst a) (fst b)).
  destruct all as [|k0 rest] eqn:EA; [destruct Hi|].
  assert (HK : In (i, r) (fold_left (nd_step err vol same) rest [k0])).
  { apply (front_keeps err vol same (k0 :: rest)); auto.
    - intros a b Ha Hb E. apply Nat.eqb_eq in E. rewrite <- EA in Ha, Hb. eapply tag_inj; eauto.
    - intros q Hq. destruct (beats err vol q (i, r)) eqn:E; [|reflexivity]. exfalso. apply beats_iff in E. cbn [snd] in E. revert E. apply HB.
      rewrite <- EA in Hq. eapply combine_seq_in; eauto. }
  apply In_nth_error in HK as (j & Hj). set (cands := fold_left (nd_step err vol same) rest [k0]) in *.
  exists (mkRng (fun _ => qofnat j) 0), (mkRng (fun _ => qofnat j) 1). unfold pick_rules. fold all. rewrite EA. unfold select_rules, nd_front.
  unfold bind, lift, choices. fold err vol same. fold cands. destruct cands as [|x l] eqn:EC; [rewrite nth_error_nil in Hj; discriminate|].
  cbn [draws draw tape pos map].
  assert (HLt : (j < length (x :: l))%nat) by (apply nth_error_Some; congruence). rewrite index_of_onto by exact HLt.
  erewrite nth_error_nth by exact Hj. reflexivity.
Qed.

(* ----- roulette wheel ----- *)
Lemma roulette_not_ninf (L : learner) (rs : list (rule L)) n g out g' : pick_rules RRoulette rs n g = (Ok out, g') ->
  (exists r, In r rs /\ rfit r <> NInf) -> Forall (fun r => rfit r <> NInf) out.
Proof.
  unfold pick_rules. intros H (r0 & Hr0 & Hf0). apply bind_inv in H as (ks & g1 & H & H'). injection H' as <- <-. rewrite Forall_map.
  cbn [select_rules] in H. destruct (in_tag rs r0 Hr0 0) as (i0 & Hi0). set (all := combine (seq 0 (length rs)) rs) in *.
  set (flt := fun k : nat * rule L => negb (neqb (rfit (snd k)) NInf)) in *.
  assert (HE : forall k, In k (filter flt all) -> rfit (snd k) <> NInf).
  { intros k Hk E. apply filter_In in Hk as [_ Hk]. unfold flt in Hk. rewrite E in Hk. discriminate. }
  assert (HI : In (i0, r0) (filter flt all)).
  { apply filter_In. split; [exact Hi0|]. unfold flt. cbn [snd]. destruct (rfit r0); try reflexivity. congruence. }
  destruct (filter flt all) as [|k0 ks0]; [destruct HI|]. 
  destruct (choices_num (k0 :: ks0) n _ g) as [[o|e] g2] eqn:E; [|destruct e; inversion H; subst; constructor].
  injection H as <- <-. unfold choices_num in E. destruct (finites _) as [qs|]; [|discriminate]. apply choices_p_in in E as [_ E].
  revert E. apply Forall_impl. intros k Hk. apply HE. exact Hk.
Qed.

(* ----- origins ----- *)
Lemma subgroup_iff (L : learner) (D : denv L) use rs : subgroup D use = Ok rs <-> considered D use rs.
Proof.
  unfold subgroup, considered. destruct (delite D) as [bits|]; [destruct use|]; try (split; intros H; [injection H as <-|rewrite H]; reflexivity).
  unfold subpopulation. destruct (Nat.eqb_spec (length bits) (length (dpool D))) as [E|E]; cbn.
  - split; [intros H; injection H as <-; auto|intros [_ ->]; reflexivity].
  - split; [discriminate|intros [H _]; contradiction].
Qed.
Lemma compress_incl {A} (l : list A) : forall b, incl (compress l b) l.
Proof.
  induction l as [|a l IH]; intros [|x b] y Hy; cbn in Hy; try contradiction. destruct x; [destruct Hy as [->|Hy]; [left; reflexivity|]|]; right; eapply IH; eauto.
Qed.
Lemma considered_incl (L : learner) (D : denv L) use rs : considered D use rs -> incl rs (dpool D).
Proof.
  unfold considered. destruct (delite D) as [bits|]; [destruct use|]; try (intros ->; apply incl_refl). intros [_ ->]. apply compress_incl.
Qed.
Lemma missed_fun {L} x (rs : list (rule L)) k k' : missed x rs k -> missed x rs k' -> k = k'.
Proof. intros H. revert k'. induction H; intros k' H'; inversion H'; subst; try contradiction; auto. Qed.
Lemma missed_le {L} x (rs : list (rule L)) k : missed x rs k -> (k <= length rs)%nat.
Proof. induction 1; cbn; lia. Qed.
Lemma missed_all {L} x (rs : list (rule L)) k : missed x rs k -> Forall (fun r => ~ covers (cond r) x) rs -> k = length rs.
Proof. induction 1; intros HF0; inversion HF0; subst; cbn; auto; contradiction. Qed.
Lemma missed_zero {L} x (rs : list (rule L)) k : missed x rs k -> (k = 0%nat <-> Forall (fun r => covers (cond r) x) rs).
Proof.
  induction 1 as [|r rs k Hc Hm IH|r rs k Hc Hm IH]; [split; auto| |].
  - rewrite IH. split; intros HF; [constructor; auto|inversion HF; auto].
  - split; [discriminate|]. intros HF. inversion HF; contradiction.
Qed.
Lemma missed_some {L} x (rs : list (rule L)) k : missed x rs k -> (0 < k)%nat -> exists r, In r rs /\ ~ covers (cond r) x.
Proof.
  induction 1 as [|r rs k Hc Hm IH|r rs k Hc Hm IH]; intros HK; [lia| |].
  - destruct (IH HK) as (q & Hq & Hn). exists q. split; [right; exact Hq|exact Hn].
  - exists r. split; [left; reflexivity|exact Hc].
Qed.

Section Match.
Variable L : learner.
Variable D : denv L.
Variable d : nat.
Hypothesis HT : table d (dX D) (dy D).
Implicit Types rs : list (rule L).

Lemma fitted_sets rs : Forall (fitted_on (dX D) (dy D)) rs ->
  exists sets, rmap (fun r => let? t := get_att L r in Ok (match_set t)) rs = Ok sets /\ Forall2 (fun r s => flags_of (cond r) (dX D) s) rs sets.
Proof.
  induction 1 as [|r rs Hr HF IH]; cbn [rmap]; [exists []; split; [reflexivity|constructor]|].
  destruct Hr as [_ (t & HA & HFl & _)]. destruct IH as (sets & -> & HS). exists (match_set t :: sets). unfold get_att. rewrite HA. cbn. split; [reflexivity|].
  constructor; auto.
Qed.
Lemma flags_nth m X fl i x : flags_of m X fl -> nth_error X i = Some x -> (nth i fl false = true <-> covers m x).
Proof.
  intros H. revert i. induction H as [|z f X fl Hz HF IH]; intros i Hx; [destruct i; discriminate|].
  destruct i as [|i]; cbn in *; [injection Hx as ->; exact Hz|apply IH; exact Hx].
Qed.
Lemma missed_count rs sets i x : Forall2 (fun r s => flags_of (cond r) (dX D) s) rs sets -> nth_error (dX D) i = Some x ->
  missed x rs (count_true (map (fun ms => negb (nth i ms false)) sets)).
Proof.
  intros H Hx. induction H as [|r s rs sets Hf HF IH]; cbn [map count_true]; [constructor|].
  pose proof (flags_nth _ _ _ _ _ Hf Hx) as HI. destruct (nth i s false); cbn [negb].
  - apply missed_hit; [apply HI; reflexivity|exact IH].
  - apply missed_miss; [intros HC; apply HI in HC; discriminate|exact IH].
Qed.
Lemma weights_spec rs : rs <> [] -> Forall (fitted_on (dX D) (dy D)) rs ->
  exists ws, matching_weights rs = Ok ws /\ length ws = length (dX D) /\
    forall i x, nth_error (dX D) i = Some x -> exists k, missed x rs k /\ nth_error ws i = Some (qofnat k).
Proof.
  intros HN HF. destruct (fitted_sets rs HF) as (sets & HR & HS). unfold matching_weights. rewrite HR. cbn [rbind].
  assert (HL : Forall (fun s => length s = length (dX D)) sets).
  { clear -HS. induction HS as [|r s rs sets Hf HS IH]; constructor; auto. symmetry. exact (Forall2_len _ _ _ Hf). }
  destruct sets as [|s sets]; [inversion HS; subst; congruence|]. inversion HL as [|? ? HLs HLr]; subst.
  assert (HB : forallb (fun t => Nat.eqb (length t) (length s)) sets = true).
  { apply forallb_forall. intros t Ht. rewrite Forall_forall in HLr. apply Nat.eqb_eq. rewrite HLr; auto. }
  rewrite HB. eexists. split; [reflexivity|]. unfold miss_counts. split; [rewrite map_length, seq_length; exact HLs|].
  intros i x Hx. eexists. split; [eapply missed_count; eauto|].
  assert (Hi : (i < length s)%nat) by (rewrite HLs; apply nth_error_Some; congruence).
  rewrite nth_error_map. rewrite (nth_error_nth' _ 0%nat) by (rewrite seq_length; exact Hi). rewrite seq_nth by exact Hi. reflexivity.
Qed.
Lemma qsum_div ws t : ~ t == 0 -> qsum (map (fun w => w / t) ws) == qsum ws / t.
Proof. intros Ht. induction ws as [|w ws IH]; [cbn; unfold Qdiv; ring|]. change (w / t + qsum (map (fun w => w / t) ws) == (w + qsum ws) / t). rewrite IH. field. exact Ht. Qed.
Lemma qsum_pos ws i w : Forall (fun w => 0 <= w) ws -> nth_error ws i = Some w -> w <= qsum ws.
Proof.
  intros HF. revert i. induction HF as [|a ws Ha HF IH]; intros i Hi; [destruct i; discriminate|]. pose proof (qsum_nonneg ws HF) as HP.
  change (qsum (a :: ws)) with (a + qsum ws). destruct i as [|i]; cbn [nth_error] in Hi; [injection Hi as ->; lra|]. specialize (IH i Hi). lra.
Qed.
Lemma probabilities_spec ws : Forall (fun w => 0 <= w) ws -> (exists i w, nth_error ws i = Some w /\ 0 < w) ->
  exists p, probabilities ws = Some p /\ length p = length ws /\ distribution p /\ 0 < qsum ws /\
    forall i w, nth_error ws i = Some w -> exists q, nth_error p i = Some q /\ q * qsum ws == w.
Proof.
  intros HF (i0 & w0 & Hi0 & Hw0). pose proof (qsum_pos ws i0 w0 HF Hi0) as HP. assert (HT0 : 0 < qsum ws) by lra.
  unfold probabilities. destruct (qeq_spec (qsum ws) 0) as [E|E]; [lra|]. eexists. split; [reflexivity|]. rewrite map_length. split; [reflexivity|].
  split; [split|split; [exact HT0|]].
  - rewrite Forall_map. revert HF. apply Forall_impl. intros w Hw. apply Qle_shift_div_l; [exact HT0|lra].
  - rewrite qsum_div by exact E. field. exact E.
  - intros i w Hi. exists (w / qsum ws). rewrite nth_error_map, Hi. split; [reflexivity|]. field. exact E.
Qed.
Lemma distribution_ok p : distribution p -> weights_ok p = true.
Proof.
  intros [HF HS]. unfold weights_ok. apply andb_true_iff. split.
  - apply forallb_forall. intros q Hq. rewrite Forall_forall in HF. apply qle_iff. auto.
  - destruct (qeq_spec (qsum p) 1); [reflexivity|contradiction].
Qed.
Lemma qofnat_nonneg k : 0 <= qofnat k.
Proof. unfold qofnat. change 0 with (inject_Z 0). rewrite <- Zle_Qle. lia. Qed.
Lemma qofnat_pos k : (0 < k)%nat -> 0 < qofnat k.
Proof. intros H. unfold qofnat. change 0 with (inject_Z 0). rewrite <- Zlt_Qlt. lia. Qed.
Lemma weights_nonneg rs ws : length ws = length (dX D) -> (forall i x, nth_error (dX D) i = Some x -> exists k, missed x rs k /\ nth_error ws i = Some (qofnat k)) ->
  Forall (fun w => 0 <= w) ws.
Proof.
  intros HL HW. apply Forall_forall. intros w Hw. apply In_nth_error in Hw as (i & Hi).
  destruct (nth_error (dX D) i) as [x|] eqn:E; [|apply nth_error_None in E; assert (i < length ws)%nat by (apply nth_error_Some; congruence); lia].
  destruct (HW i x E) as (k & _ & Hk). assert (w = qofnat k) by congruence. subst. apply qofnat_nonneg.
Qed.

Lemma matching_distribution use rs n : Forall (fitted_on (dX D) (dy D)) (dpool D) -> considered D use rs ->
  (exists x r, In x (dX D) /\ In r rs /\ ~ covers (cond r) x) ->
  exists p total, 0 < total /\ length p = length (dX D) /\ distribution p /\
    (forall i x k, nth_error (dX D) i = Some x -> missed x rs k -> exists q, nth_error p i = Some q /\ q * total == inject_Z (Z.of_nat k)) /\
    (forall i x q, nth_error (dX D) i = Some x -> nth_error p i = Some q -> Forall (fun r => ~ covers (cond r) x) rs -> Forall (fun q' => q' <= q) p) /\
    (forall i x q, nth_error (dX D) i = Some x -> nth_error p i = Some q -> Forall (fun r => covers (cond r) x) rs -> q == 0) /\
    forall g, origins (Matching use) D n g = choices_p (dX D) n p g.
Proof.
  intros HP HC (x0 & r0 & Hx0 & Hr0 & Hn0). pose proof (considered_incl _ _ _ _ HC) as HI.
  assert (HF : Forall (fitted_on (dX D) (dy D)) rs) by (apply Forall_forall; intros r Hr; rewrite Forall_forall in HP; auto).
  assert (HNe : rs <> []) by (intros ->; destruct Hr0).
  destruct (weights_spec rs HNe HF) as (ws & HW & HL & HK). pose proof (weights_nonneg rs ws HL HK) as HNN.
  apply In_nth_error in Hx0 as (i0 & Hi0). destruct (HK i0 x0 Hi0) as (k0 & HM0 & HK0).
  assert (Hk0 : (0 < k0)%nat).
  { destruct k0; [|lia]. exfalso. pose proof (proj1 (missed_zero _ _ _ HM0) eq_refl) as HA. rewrite Forall_forall in HA. auto. }
  destruct (probabilities_spec ws HNN) as (p & HPr & HLp & HD & HS & HQ).
  { exists i0, (qofnat k0). split; [exact HK0|apply qofnat_pos; exact Hk0]. }
  exists p, (qsum ws). split; [exact HS|]. split; [congruence|]. split; [exact HD|].
  assert (HMain : forall i x k, nth_error (dX D) i = Some x -> missed x rs k -> exists q, nth_error p i = Some q /\ q * qsum ws == inject_Z (Z.of_nat k)).
  { intros i x k Hi HM. destruct (HK i x Hi) as (k' & HM' & HK'). rewrite (missed_fun _ _ _ _ HM HM'). apply HQ. exact HK'. }
  split; [exact HMain|]. split; [|split].
  - intros i x q Hi Hq HA. destruct (HK i x Hi) as (k & HM & _). destruct (HMain i x k Hi HM) as (q1 & Hq1 & HE). assert (q1 = q) by congruence. subst q1.
    pose proof (missed_all _ _ _ HM HA) as ->. apply Forall_forall. intros q' Hq'. apply In_nth_error in Hq' as (j & Hj).
    assert (Hjl : (j < length (dX D))%nat) by (rewrite <- HL, <- HLp; apply nth_error_Some; congruence).
    destruct (nth_error (dX D) j) as [z|] eqn:EZ; [|apply nth_error_None in EZ; lia].
    destruct (HK j z EZ) as (k' & HM' & _). destruct (HMain j z k' EZ HM') as (q2 & Hq2 & HE2). assert (q2 = q') by congruence. subst q2.
    pose proof (missed_le _ _ _ HM') as HLe. apply (Qmult_le_r _ _ (qsum ws)); [exact HS|]. rewrite HE, HE2. rewrite <- Zle_Qle. lia.
  - intros i x q Hi Hq HA. destruct (HK i x Hi) as (k & HM & _). destruct (HMain i x k Hi HM) as (q1 & Hq1 & HE). assert (q1 = q) by congruence. subst q1.
    apply (missed_zero _ _ _ HM) in HA. subst k. change (inject_Z (Z.of_nat 0)) with 0 in HE. apply Qmult_integral in HE as [HE|HE]; [exact HE|lra].
  - intros g. cbn [origins]. unfold wheel. apply subgroup_iff in HC. rewrite HC. unfold bind, lift, ret. destruct rs; [congruence|]. rewrite HW, HPr. reflexivity.
Qed.
Lemma matching_never_covered use rs n g xs g' : Forall (fitted_on (dX D) (dy D)) (dpool D) -> considered D use rs ->
  (exists x r, In x (dX D) /\ In r rs /\ ~ covers (cond r) x) -> origins (Matching use) D n g = (Ok xs, g') ->
  Forall (fun x => In x (dX D) /\ exists r, In r rs /\ ~ covers (cond r) x) xs.
Proof.
  intros HP HC HE H. destruct (matching_distribution use rs n HP HC HE) as (p & total & HT0 & HL & HD & HM & _ & HZ & HO). rewrite HO in H.
  apply choices_p_ok in H as (_ & _ & _ & _ & H). revert H. apply Forall_impl. intros x (i & q & Hi & Hq & Hpos). split; [eapply nth_error_In; eauto|].
  pose proof (considered_incl _ _ _ _ HC) as HI.
  assert (HF : Forall (fitted_on (dX D) (dy D)) rs) by (apply Forall_forall; intros r Hr; rewrite Forall_forall in HP; auto).
  destruct (fitted_sets rs HF) as (sets & _ & HS). pose proof (missed_count rs sets i x HS Hi) as HMx.
  destruct (HM i x _ Hi HMx) as (q1 & Hq1 & HE1). assert (q1 = q) by congruence. subst q1. eapply missed_some; [exact HMx|].
  destruct (count_true _); [|lia]. exfalso. change (inject_Z (Z.of_nat 0)) with 0 in HE1. apply Qmult_integral in HE1 as [E|E]; lra.
Qed.
Lemma qsum_zero ws : Forall (fun w => w == 0) ws -> qsum ws == 0.
Proof. induction 1 as [|w ws Hw HF IH]; [reflexivity|]. change (w + qsum ws == 0). lra. Qed.
Lemma matching_no_bias use rs n g : Forall (fitted_on (dX D) (dy D)) (dpool D) -> considered D use rs ->
  (forall x r, In x (dX D) -> In r rs -> covers (cond r) x) -> origins (Matching use) D n g = choices (dX D) n g.
Proof.
  intros HP HC HA. pose proof (considered_incl _ _ _ _ HC) as HI.
  assert (HF : Forall (fitted_on (dX D) (dy D)) rs) by (apply Forall_forall; intros r Hr; rewrite Forall_forall in HP; auto).
  cbn [origins]. unfold wheel. pose proof (proj2 (subgroup_iff _ _ _ _) HC) as HSub. rewrite HSub. unfold bind, lift, ret.
  destruct rs as [|r rs]; [reflexivity|]. destruct (weights_spec (r :: rs)) as (ws & HW & HL & HK); [discriminate|exact HF|]. rewrite HW.
  unfold probabilities. destruct (qeq_spec (qsum ws) 0) as [E|E]; [reflexivity|]. exfalso. apply E. apply qsum_zero. apply Forall_forall. intros w Hw.
  apply In_nth_error in Hw as (i & Hi). destruct (nth_error (dX D) i) as [x|] eqn:EX.
  - destruct (HK i x EX) as (k & HM & Hk). assert (w = qofnat k) by congruence. subst w.
    assert (k = 0%nat). { apply (missed_zero _ _ _ HM). apply Forall_forall. intros q Hq. apply HA; auto. eapply nth_error_In; eauto. }
    subst. reflexivity.
  - apply nth_error_None in EX. assert (i < length ws)%nat by (apply nth_error_Some; congruence). lia.
Qed.

(* ----- squared error ----- *)
Lemma squared_distribution use rs bits n g pr g1 : considered D use rs -> rs <> [] -> delite D = Some bits ->
  sol_predict L (dmix D) (if use then bits else repeat true (length (dpool D))) (dpool D) (dX D) false g = (Ok pr, g1) ->
  length pr = length (dX D) -> (exists i a b, nth_error pr i = Some a /\ nth_error (dy D) i = Some b /\ ~ a == b) ->
  exists p total, 0 < total /\ length p = length (dX D) /\ distribution p /\
    (forall i a b, nth_error pr i = Some a -> nth_error (dy D) i = Some b -> exists q, nth_error p i = Some q /\ q * total == (a - b) * (a - b)) /\
    origins (SquaredError use) D n g = choices_p (dX D) n p g1.
Proof.
  intros HC HNe HE HPr HLp (i0 & a0 & b0 & Ha0 & Hb0 & Hab). destruct HT as [_ Hy].
  set (ws := map2 (fun a b => (a - b) * (a - b)) pr (dy D)).
  assert (HW : forall i a b, nth_error pr i = Some a -> nth_error (dy D) i = Some b -> nth_error ws i = Some ((a - b) * (a - b))).
  { unfold ws. clear. generalize (dy D). induction pr as [|p pr IH]; intros [|b l] [|i] a c H1 H2; try discriminate; cbn in *; [congruence|]. apply IH; auto. }
  assert (HLw : length ws = length (dX D)) by (unfold ws; rewrite map2_length; congruence).
  assert (HNN : Forall (fun w => 0 <= w) ws).
  { unfold ws. clear. generalize (dy D). induction pr as [|p pr IH]; intros [|b l]; [constructor|constructor|constructor|]. cbn [map2]. constructor; [generalize (p - b); intros z; destruct (Qlt_le_dec z 0); nra|apply IH]. }
  assert (Hpos : 0 < (a0 - b0) * (a0 - b0)).
  { destruct (Qlt_le_dec a0 b0) as [HL|HL]; [nra|]. destruct (Qlt_le_dec b0 a0) as [HL'|HL']; [nra|]. exfalso. apply Hab. lra. }
  destruct (probabilities_spec ws HNN) as (p & HP & HLpp & HD & HS & HQ); [exists i0; eexists; split; [apply HW; eauto|exact Hpos]|].
  exists p, (qsum ws). split; [exact HS|]. split; [congruence|]. split; [exact HD|]. split; [intros i a b Ha Hb; apply HQ; apply HW; auto|].
  cbn [origins]. unfold wheel. apply subgroup_iff in HC. rewrite HC. unfold bind, lift, ret. destruct rs as [|r rs]; [congruence|].
  unfold squared_weights. rewrite HE. unfold bind. rewrite HPr, HLp, <- Hy, Nat.eqb_refl. fold ws. unfold ret. rewrite HP. reflexivity.
Qed.
Lemma squared_needs_elitist use n g : delite D = None -> dpool D <> [] -> origins (SquaredError use) D n g = (Raise AttributeError, g).
Proof.
  intros HE HP. cbn [origins]. unfold wheel, subgroup. rewrite HE. unfold bind, lift, ret. destruct (dpool D) as [|r rs] eqn:E; [congruence|].
  unfold squared_weights. rewrite HE. reflexivity.
Qed.
End Match.

(* ----- uniform input ----- *)
Lemma uniform_input_box X n g xs g' d : Forall (fun x => length x = d) X -> uniform_input X n g = (Ok xs, g') ->
  length xs = n /\ forall space, (forall r, In r X -> in_space space r) -> Forall (in_space space) xs.
Proof.
  intros HX H. unfold uniform_input in H. apply bind_inv in H as (bs & g1 & HB & H). unfold lift in HB. injection HB as HB _.
  destruct X as [|x0 X0]; [discriminate|]. inversion HX as [|? ? Hx0 HX0]; subst.
  destruct (estimate_bounds_correct (x0 :: X0) x0 X0 eq_refl HX0) as (bs' & HB' & HLb & HPb & HIb & HTb).
  assert (bs' = bs) by congruence. subst bs'.
  assert (HG : length xs = n /\ Forall (in_space bs) xs).
  { revert g1 xs g' H. induction n as [|n IH]; intros g1 xs g' H; [injection H as <- <-; split; [reflexivity|constructor]|].
    apply bind_inv in H as (x & g2 & Hx & H). apply bind_inv in H as (xs' & g3 & Hxs & H). injection H as <- <-.
    destruct (IH _ _ _ Hxs) as [I1 I2]. split; [cbn; lia|]. constructor; [|exact I2].
    pose proof (draws_length (length bs) g1) as HL. destruct (draws (length bs) g1) as [qs g4]. cbn [fst] in HL. injection Hx as <- _.
    clear -HPb HL. revert qs HL. unfold in_space. induction HPb as [|lh bs Hlh HP IH]; intros [|q qs] HL; try discriminate; cbn; constructor.
    - apply uniform_of_range. exact Hlh.
    - apply IH. cbn in HL. lia. }
  destruct HG as [HG1 HG2]. split; [exact HG1|]. intros space HS. specialize (HTb space HS). revert HG2. apply Forall_impl. intros x Hx.
  clear -Hx HTb. unfold in_space in *. revert x Hx. induction HTb as [|s b space bs [H1 H2] HT IH]; intros x Hx; inversion Hx as [|? xi ? x' Hi Hr]; subst; constructor; [lra|auto].
Qed.
