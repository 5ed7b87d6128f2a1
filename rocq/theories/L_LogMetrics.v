(* Metrics: matched samples, diversity, percentiles, scores. *)
From Coq Require Import String.
From Verif Require Import PyNum PyList PyMon PyRng PyStat L_Num L_List M_Matching M_Rule M_Mixing M_Fit S_Fit M_Logging S_Logging.
From Coq Require Import Lqa.

Lemma count_true_le g : (count_true g <= length g)%nat.
Proof. induction g as [|[|] g IH]; cbn; lia. Qed.
Lemma count_true_all g : count_true g = length g <-> Forall (fun b => b = true) g.
Proof.
  induction g as [|b g IH]; cbn; [split; [constructor|reflexivity]|]. pose proof (count_true_le g). destruct b; cbn; split; intros H0.
  - constructor; [reflexivity|]. apply IH. lia.
  - inversion H0; subst. apply IH in H4. lia.
  - lia.
  - inversion H0; discriminate.
Qed.
Lemma count_true_none g : count_true g = 0%nat <-> Forall (fun b => b = false) g.
Proof.
  induction g as [|b g IH]; cbn; [split; [constructor|reflexivity]|]. destruct b; cbn; split; intros H0; try lia.
  - inversion H0; discriminate.
  - constructor; [reflexivity|]. apply IH. lia.
  - inversion H0; subst. apply IH in H3. lia.
Qed.

Section Matched.
Variable L : learner.
Implicit Types pool : list (rule L).
Lemma rmap_sets pool sets : rmap (fun r => let? a := get_att L r in Ok (match_set a)) pool = Ok sets ->
  Forall2 (fun r s => exists a, att r = Some a /\ match_set a = s) pool sets.
Proof.
  revert sets. induction pool as [|r pool IH]; intros sets H; cbn in H; [injection H as <-; constructor|].
  unfold get_att in H. destruct (att r) as [a|] eqn:EA; cbn in H; [|discriminate].
  destruct (rmap _ pool) as [ss|] eqn:E; cbn in H; [|discriminate]. injection H as <-. constructor; [exists a; auto|]. apply IH. reflexivity.
Qed.
Lemma any_of_covered pool sets i n : Forall2 (fun r s => exists a, att r = Some a /\ match_set a = s) pool sets -> (forall s, In s sets -> length s = n) ->
  any_of sets i = true <-> covered pool i.
Proof.
  intros H HL. unfold any_of, covered. rewrite existsb_exists. split.
  - intros (s & Hs & Hn). destruct (In_nth_error _ _ Hs) as [k Hk]. clear HL Hs.
    revert k Hk. induction H as [|r s' pool sets (a & Ha & Hm) _ IH]; intros k Hk; [destruct k; discriminate|].
    destruct k as [|k]; cbn in Hk.
    + injection Hk as ->. exists r, a. split; [left; reflexivity|]. split; [exact Ha|]. rewrite Hm.
      destruct (nth_error s i) as [b|] eqn:E; [rewrite (nth_error_nth _ _ false E) in Hn; congruence|]. apply nth_error_None in E. rewrite nth_overflow in Hn by exact E. discriminate.
    + destruct (IH k Hk) as (r1 & a1 & H1 & H2 & H3). exists r1, a1. split; [right; exact H1|auto].
  - intros (r & a & Hr & Ha & Hn). clear HL. induction H as [|r' s pool sets (a' & Ha' & Hm) _ IH]; [destruct Hr|].
    destruct Hr as [->|Hr].
    + exists s. split; [left; reflexivity|]. rewrite Ha in Ha'. injection Ha' as <-. rewrite Hm in Hn. apply nth_error_nth. exact Hn.
    + destruct (IH Hr) as (s' & H1 & H2). exists s'. split; [right; exact H1|exact H2].
Qed.
Lemma count_seq (f : nat -> bool) n : count_true (map f (seq 0 n)) = length (filter f (seq 0 n)).
Proof. generalize 0%nat. induction n as [|n IH]; intros k; cbn; [reflexivity|]. rewrite IH. destruct (f k); cbn; lia. Qed.

Lemma matched_spec pool n : pool <> [] -> (0 < n)%nat -> fitted_on pool n ->
  exists v hit, matched_training_samples pool = Ok v /\ NoDup hit /\ (forall i, In i hit <-> (i < n)%nat /\ covered pool i) /\
    v == qofnat (length hit) / qofnat n.
Proof.
  intros HN Hn HF.
  assert (HS : exists sets, rmap (fun r => let? a := get_att L r in Ok (match_set a)) pool = Ok sets /\ Forall (fun s => length s = n) sets).
  { clear HN. induction HF as [|r pool (a & Ha & Hl) _ (sets & E & HA)]; [exists []; split; [reflexivity|constructor]|].
    exists (match_set a :: sets). cbn. unfold get_att. rewrite Ha. cbn. unfold get_att in E. rewrite E. split; [reflexivity|constructor; assumption]. }
  destruct HS as (sets & E & HA). unfold matched_training_samples. destruct pool as [|r0 pool0]; [congruence|]. rewrite E. cbn [rbind].
  pose proof (rmap_sets _ _ E) as HF2. destruct sets as [|s sets]; [inversion HF2|].
  assert (Hs : length s = n) by (inversion HA; assumption).
  assert (EF : forallb (fun r => Nat.eqb (length r) (length s)) (s :: sets) = true).
  { apply forallb_forall. intros t Ht. rewrite Forall_forall in HA. apply Nat.eqb_eq. rewrite (HA t Ht). congruence. }
  rewrite EF. cbn [negb]. assert (EZ : Nat.eqb (length s) 0 = false) by (apply Nat.eqb_neq; lia). rewrite EZ.
  eexists. exists (filter (any_of (s :: sets)) (seq 0 n)). split; [reflexivity|]. split; [apply NoDup_filter, seq_NoDup|]. split.
  - intros i. rewrite filter_In, in_seq. rewrite (any_of_covered (r0 :: pool0) (s :: sets) i n HF2).
    + cbn. intuition lia.
    + rewrite Forall_forall in HA. exact HA.
  - rewrite count_seq, Hs. reflexivity.
Qed.
End Matched.

Lemma qofnat_pos n : (0 < n)%nat -> 0 < qofnat n.
Proof. intros H. unfold qofnat. replace 0 with (inject_Z 0) by reflexivity. rewrite <- Zlt_Qlt. lia. Qed.
Lemma qofnat_le a b : (a <= b)%nat -> qofnat a <= qofnat b.
Proof. intros H. unfold qofnat. rewrite <- Zle_Qle. lia. Qed.
Lemma ratio_range k n : (0 < n)%nat -> (k <= n)%nat -> 0 <= qofnat k / qofnat n <= 1.
Proof.
  intros Hn Hk. pose proof (qofnat_pos n Hn). split.
  - apply Qle_shift_div_l; [assumption|]. rewrite Qmult_0_l. apply (qofnat_le 0). lia.
  - apply Qle_shift_div_r; [assumption|]. rewrite Qmult_1_l. apply qofnat_le. exact Hk.
Qed.
Lemma qofnat_inj a b : qofnat a == qofnat b -> a = b.
Proof. unfold qofnat. rewrite inject_Z_injective. lia. Qed.
Lemma ratio_one k n : (0 < n)%nat -> qofnat k / qofnat n == 1 <-> k = n.
Proof.
  intros Hn. pose proof (qofnat_pos n Hn) as HP. split; intros H.
  - apply qofnat_inj. apply (Qmult_inj_r _ _ (/ qofnat n)); [intros E; apply Qinv_lt_0_compat in HP; lra|]. rewrite Qmult_inv_r by lra. exact H.
  - subst. unfold Qdiv. apply Qmult_inv_r. lra.
Qed.
Lemma ratio_zero k n : (0 < n)%nat -> qofnat k / qofnat n == 0 <-> k = 0%nat.
Proof.
  intros Hn. pose proof (qofnat_pos n Hn) as HP. split; intros H.
  - apply qofnat_inj. change (qofnat 0) with 0. apply (Qmult_inj_r _ _ (/ qofnat n)); [intros E; apply Qinv_lt_0_compat in HP; lra|]. rewrite Qmult_0_l. exact H.
  - subst. unfold Qdiv. change (qofnat 0) with 0. lra.
Qed.

Lemma matched_share (L : learner) (pool : list (rule L)) n : (0 < n)%nat -> fitted_on pool n ->
  exists v, matched_training_samples pool = Ok v /\ 0 <= v <= 1 /\
    (v == 1 <-> forall i, (i < n)%nat -> covered pool i) /\ (v == 0 <-> forall i, (i < n)%nat -> ~ covered pool i) /\
    exists hit, NoDup hit /\ (forall i, In i hit <-> (i < n)%nat /\ covered pool i) /\ v * qofnat n == qofnat (length hit).
Proof.
  intros Hn HF. destruct pool as [|r pool].
  - exists 0. split; [reflexivity|]. split; [lra|]. split; [split; [intros; lra|intros H; destruct (H 0%nat Hn) as (r & a & [] & _)]|].
    split; [split; [intros _ i _ (r & a & [] & _)|reflexivity]|]. exists []. split; [constructor|]. split; [|apply Qmult_0_l].
    intros i. split; [intros []|intros [_ (r & a & [] & _)]].
  - destruct (matched_spec L (r :: pool) n) as (v & hit & H1 & H2 & H3 & H4); [discriminate|assumption|assumption|].
    assert (HL : (length hit <= n)%nat).
    { rewrite <- (seq_length n 0). apply NoDup_incl_length; [assumption|]. intros i Hi. apply H3 in Hi. apply in_seq. lia. }
    exists v. split; [exact H1|]. split; [rewrite H4; apply ratio_range; assumption|]. split; [|split].
    + rewrite H4, ratio_one by assumption. split.
      * intros HE i Hi. apply H3. assert (HI : incl (seq 0 n) hit).
        { apply NoDup_length_incl; [assumption|rewrite seq_length; lia|]. intros j Hj. apply H3 in Hj. apply in_seq. lia. }
        apply HI. apply in_seq. lia.
      * intros HA. apply Nat.le_antisymm; [exact HL|]. rewrite <- (seq_length n 0) at 1. apply NoDup_incl_length; [apply seq_NoDup|].
        intros i Hi. apply in_seq in Hi. apply H3. split; [lia|]. apply HA. lia.
    + rewrite H4, ratio_zero by assumption. split.
      * intros HE i Hi HC. destruct hit; [|discriminate]. apply (proj2 (H3 i)). auto.
      * intros HA. destruct hit as [|i hit]; [reflexivity|]. exfalso. destruct (proj1 (H3 i) (or_introl eq_refl)) as [Hi HC]. exact (HA i Hi HC).
    + exists hit. split; [assumption|]. split; [assumption|]. rewrite H4. pose proof (qofnat_pos n Hn). field. lra.
Qed.

(* ----- diversity ----- *)
Lemma ones_cons j g gs : ones j (g :: gs) = ((if nth j g false then 1 else 0) + ones j gs)%nat.
Proof. unfold ones. cbn. destruct (nth j g false); reflexivity. Qed.
Lemma ones_le j gs : (ones j gs <= length gs)%nat.
Proof. induction gs as [|g gs IH]; [cbn; lia|]. rewrite ones_cons. cbn. destruct (nth j g false); lia. Qed.
Lemma sum_map_plus {A} (f g : A -> nat) l : list_sum (map (fun x => f x + g x)%nat l) = (list_sum (map f l) + list_sum (map g l))%nat.
Proof. induction l as [|a l IH]; cbn; [reflexivity|]. unfold list_sum in *. cbn. lia. Qed.
Lemma count_xor a b : length a = length b -> count_true (map2 xorb a b) = list_sum (map (fun j => if xorb (nth j a false) (nth j b false) then 1 else 0)%nat (seq 0 (length a))).
Proof.
  revert b. induction a as [|x a IH]; intros [|z b] H; try discriminate; [reflexivity|]. cbn [map2 count_true length seq map nth]. injection H as H.
  rewrite (IH b H), <- seq_shift, map_map. cbn. destruct (xorb x z); reflexivity.
Qed.
Lemma rmap_app {A B} (f : A -> res B) l1 l2 y1 y2 : rmap f l1 = Ok y1 -> rmap f l2 = Ok y2 -> rmap f (l1 ++ l2) = Ok (y1 ++ y2).
Proof.
  revert y1. induction l1 as [|x l1 IH]; intros y1 H1 H2; cbn in *; [injection H1 as <-; exact H2|].
  destruct (f x); cbn in *; [|discriminate]. destruct (rmap f l1) as [ys|]; cbn in *; [|discriminate]. injection H1 as <-. rewrite (IH ys eq_refl H2). reflexivity.
Qed.
Lemma pair_sums m gs : Forall (fun g => length g = m) gs ->
  exists ds, rmap (fun ab => hamming_distance (fst ab) (snd ab)) (combinations2 gs) = Ok ds /\
    list_sum ds = list_sum (map (fun j => ones j gs * (length gs - ones j gs))%nat (seq 0 m)).
Proof.
  induction 1 as [|g gs Hg HF (ds & HD & HS)]; [exists []; split; [reflexivity|]|].
  { cbn. induction (seq 0 m) as [|a l IH]; [reflexivity|]. cbn. exact IH. }
  assert (HR : exists es, rmap (fun ab => hamming_distance (fst ab) (snd ab)) (map (pair g) gs) = Ok es /\
     list_sum es = list_sum (map (fun j => if nth j g false then length gs - ones j gs else ones j gs)%nat (seq 0 m))).
  { clear ds HD HS. induction HF as [|h gs Hh HF IH].
    - exists []. split; [reflexivity|]. cbn. induction (seq 0 m) as [|a l IH]; [reflexivity|]. cbn. destruct (nth a g false); exact IH.
    - destruct IH as (es & E & HS). eexists (_ :: es). cbn [map rmap fst snd]. unfold hamming_distance at 1. rewrite Hg, Hh, Nat.eqb_refl. cbn [rbind]. rewrite E. cbn [rbind]. split; [reflexivity|].
      change (list_sum (?a :: ?l)) with (a + list_sum l)%nat. rewrite HS, count_xor by congruence. rewrite Hg, <- sum_map_plus. f_equal. apply map_ext. intros j. rewrite ones_cons. cbn [length].
      pose proof (ones_le j gs). destruct (nth j g false), (nth j h false); cbn [xorb]; lia. }
  destruct HR as (es & E & HE). exists (es ++ ds). split; [cbn [combinations2]; apply rmap_app; assumption|].
  rewrite list_sum_app, HE, HS, <- sum_map_plus. f_equal. apply map_ext. intros j. rewrite ones_cons. cbn [length]. pose proof (ones_le j gs).
  destruct (nth j g false); [|replace (S (length gs) - (0 + ones j gs))%nat with (S (length gs - ones j gs)) by lia; lia]. replace (S (length gs) - (1 + ones j gs))%nat with (length gs - ones j gs)%nat by lia. lia.
Qed.
Lemma sum_zero {A} (f : A -> nat) l : list_sum (map f l) = 0%nat <-> forall x, In x l -> f x = 0%nat.
Proof.
  induction l as [|a l IH]; cbn; [split; [intros _ x []|reflexivity]|]. unfold list_sum in *. cbn. split.
  - intros H x [<-|Hx]; [lia|]. apply IH; [lia|exact Hx].
  - intros H. rewrite (H a (or_introl eq_refl)). cbn. apply IH. intros x Hx. apply H. right. exact Hx.
Qed.
Lemma sum_le_const {A} (f : A -> nat) c l : (forall x, f x <= c)%nat -> (list_sum (map f l) <= length l * c)%nat.
Proof. intros H. induction l as [|a l IH]; cbn; [lia|]. unfold list_sum in *. cbn. specialize (H a). lia. Qed.
Lemma ones_zero j gs : ones j gs = 0%nat <-> forall g, In g gs -> nth j g false = false.
Proof.
  induction gs as [|g gs IH]; [cbn; split; [intros _ g []|reflexivity]|]. rewrite ones_cons. split.
  - intros H h [<-|Hh]; [destruct (nth j g false); [lia|reflexivity]|]. apply IH; [lia|exact Hh].
  - intros H. rewrite (H g (or_introl eq_refl)). cbn. apply IH. intros h Hh. apply H. right. exact Hh.
Qed.
Lemma ones_all j gs : ones j gs = length gs <-> forall g, In g gs -> nth j g false = true.
Proof.
  induction gs as [|g gs IH]; [cbn; split; [intros _ g []|reflexivity]|]. rewrite ones_cons. cbn [length]. pose proof (ones_le j gs). split.
  - intros H0 h [<-|Hh]; [destruct (nth j g false); [reflexivity|lia]|]. apply IH; [destruct (nth j g false); lia|exact Hh].
  - intros H0. rewrite (H0 g (or_introl eq_refl)). cbn. f_equal. apply IH. intros h Hh. apply H0. right. exact Hh.
Qed.
Lemma list_ext_bits (a b : list bool) : length a = length b -> (forall j, (j < length a)%nat -> nth j a false = nth j b false) -> a = b.
Proof.
  revert b. induction a as [|x a IH]; intros [|z b] H HN; try discriminate; [reflexivity|]. f_equal; [exact (HN 0%nat ltac:(cbn; lia))|].
  apply IH; [injection H; auto|]. intros j Hj. exact (HN (S j) ltac:(cbn; lia)).
Qed.
Lemma square_bound k n : (k <= n)%nat -> (4 * (k * (n - k)) <= n * n)%nat.
Proof. intros H. assert (E : exists d, n = (k + d)%nat) by (exists (n - k)%nat; lia). destruct E as [d ->]. replace (k + d - k)%nat with d by lia. assert (0 <= (Z.of_nat k - Z.of_nat d) * (Z.of_nat k - Z.of_nat d))%Z by apply Z.square_nonneg. nia. Qed.

Lemma diversity_spec m gs : (0 < m)%nat -> gs <> [] -> Forall (fun g => length g = m) gs ->
  exists q, genome_diversity gs = Ok (Fin q) /\
    q * qofnat m == qofnat (list_sum (map (fun j => ones j gs * (length gs - ones j gs))%nat (seq 0 m))) /\
    0 <= q /\ q * 4 <= qofnat (length gs) * qofnat (length gs) /\ (q == 0 <-> forall g h, In g gs -> In h gs -> g = h).
Proof.
  intros Hm HN HF. destruct (pair_sums m gs HF) as (ds & HD & HS). unfold genome_diversity. rewrite HD. cbn [rbind].
  destruct gs as [|g0 gs0] eqn:EG; [congruence|]. rewrite <- EG in *. assert (Hg0 : length g0 = m) by (rewrite EG in HF; inversion HF; assumption).
  rewrite Hg0. pose proof (qofnat_pos m Hm) as HP. unfold ndiv. assert (EZ : qeq (qofnat m) 0 = false) by (unfold qeq; apply not_true_is_false; intros E; apply Qeq_bool_iff in E; lra).
  rewrite EZ. exists (qofnat (list_sum ds) / qofnat m). split; [reflexivity|]. rewrite HS. set (t := list_sum (map _ (seq 0 m))).
  split; [field; lra|]. split; [apply Qle_shift_div_l; [assumption|]; rewrite Qmult_0_l; apply (qofnat_le 0); lia|]. split.
  - assert (HB : (4 * t <= m * (length gs * length gs))%nat).
    { assert (HT : (t * 4 <= m * (length gs * length gs))%nat); [|lia]. unfold t. clear - HN.
      assert (H4 : forall l, (list_sum (map (fun j => ones j gs * (length gs - ones j gs)) l) * 4 <= length l * (length gs * length gs))%nat).
      { induction l as [|j l IH]; [cbn; lia|]. cbn [map length]. change (list_sum (?a :: ?b)) with (a + list_sum b)%nat. pose proof (square_bound (ones j gs) (length gs) (ones_le j gs)). lia. }
      specialize (H4 (seq 0 m)). rewrite seq_length in H4. exact H4. }
    assert (HQ : qofnat t * 4 <= qofnat m * (qofnat (length gs) * qofnat (length gs))).
    { unfold qofnat. replace 4 with (inject_Z 4) by reflexivity. rewrite <- !inject_Z_mult, <- Zle_Qle. lia. }
    apply (Qmult_le_r _ _ (qofnat m)); [assumption|]. setoid_replace (qofnat t / qofnat m * 4 * qofnat m) with (qofnat t * 4) by (field; lra).
    setoid_replace (qofnat (length gs) * qofnat (length gs) * qofnat m) with (qofnat m * (qofnat (length gs) * qofnat (length gs))) by ring. exact HQ.
  - rewrite ratio_zero by assumption. unfold t. rewrite sum_zero. rewrite Forall_forall in HF. split.
    + intros HZ g h Hg Hh. apply list_ext_bits; [rewrite (HF g Hg), (HF h Hh); reflexivity|]. intros j Hj. rewrite (HF g Hg) in Hj.
      assert (HJ : In j (seq 0 m)) by (apply in_seq; lia). specialize (HZ j HJ). cbn beta in HZ. apply Nat.eq_mul_0 in HZ. destruct HZ as [HZ|HZ].
      * rewrite ones_zero in HZ. rewrite (HZ g Hg), (HZ h Hh). reflexivity.
      * assert (HO : ones j gs = length gs) by (pose proof (ones_le j gs); lia). rewrite ones_all in HO. rewrite (HO g Hg), (HO h Hh). reflexivity.
    + intros HE j Hj. assert (H0 : In g0 gs) by (rewrite EG; left; reflexivity). destruct (nth j g0 false) eqn:EB.
      * assert (HO : ones j gs = length gs) by (apply ones_all; intros g Hg; rewrite (HE g g0 Hg H0); exact EB). rewrite HO. lia.
      * assert (HO : ones j gs = 0%nat) by (apply ones_zero; intros g Hg; rewrite (HE g g0 Hg H0); exact EB). rewrite HO. reflexivity.
Qed.

(* ----- r2 ----- *)
Lemma qsum_nonneg l : Forall (fun x => 0 <= x) l -> 0 <= qsum l.
Proof. induction 1; cbn; [lra|]. unfold qsum in IHForall. lra. Qed.
Lemma sq_nonneg (a : Q) : 0 <= a * a.
Proof. destruct (Qlt_le_dec a 0) as [H|H]; [setoid_replace (a * a) with ((-a) * (-a)) by ring; apply Qmult_le_0_compat; lra|apply Qmult_le_0_compat; assumption]. Qed.
Lemma sq_zero (a : Q) : a * a == 0 -> a == 0.
Proof. intros H. destruct (Qmult_integral _ _ H); assumption. Qed.
Lemma sse_zero y : forall p, length y = length p -> qsum (map2 (fun a b => (a - b) * (a - b)) y p) == 0 -> Forall2 Qeq y p.
Proof.
  induction y as [|a y IH]; intros [|b p] HL H; try discriminate; [constructor|]. cbn in H. injection HL as HL.
  assert (H1 : 0 <= qsum (map2 (fun a b => (a - b) * (a - b)) y p)).
  { apply qsum_nonneg. clear. revert p. induction y as [|a y IH]; intros [|b p]; cbn; constructor; [apply sq_nonneg|apply IH]. }
  pose proof (sq_nonneg (a - b)). unfold qsum in *. constructor; [|apply IH; [exact HL|lra]]. assert (H2 : (a - b) * (a - b) == 0) by lra. apply sq_zero in H2. lra.
Qed.
Lemma sse_exact y p : Forall2 Qeq y p -> qsum (map2 (fun a b => (a - b) * (a - b)) y p) == 0.
Proof. induction 1 as [|a b y p H _ IH]; cbn; [reflexivity|]. unfold qsum in *. rewrite IH, H. ring. Qed.
Lemma sse_nonneg y p : 0 <= qsum (map2 (fun a b => (a - b) * (a - b)) y p).
Proof. apply qsum_nonneg. revert p. induction y as [|a y IH]; intros [|b p]; cbn; constructor; [apply sq_nonneg|apply IH]. Qed.
Lemma r2_spec y p : length y = length p -> (2 <= length y)%nat ->
  exists s, r2_score y p = Ok (Fin s) /\ s <= 1 /\ (s == 1 <-> Forall2 Qeq y p).
Proof.
  intros HL H2. unfold r2_score. rewrite HL, Nat.eqb_refl. cbn [negb]. assert (E2 : Nat.ltb (length p) 2 = false) by (apply Nat.ltb_ge; lia). rewrite E2. cbv zeta.
  set (n := qsum (map2 _ y p)). set (d := qsum (map _ y)). eexists. split; [reflexivity|].
  assert (Hn : 0 <= n) by apply sse_nonneg. assert (Hd : 0 <= d) by (apply qsum_nonneg; apply Forall_map, Forall_forall; intros; apply sq_nonneg).
  assert (HE : n == 0 <-> Forall2 Qeq y p) by (split; [apply sse_zero; exact HL|apply sse_exact]).
  unfold qeq. destruct (Qeq_bool n 0) eqn:E0.
  - apply Qeq_bool_iff in E0. split; [lra|]. rewrite <- HE. split; [intros _; exact E0|reflexivity].
  - assert (N0 : ~ n == 0) by (intros H; apply Qeq_bool_iff in H; congruence). destruct (Qeq_bool d 0) eqn:E1.
    + split; [lra|]. rewrite <- HE. split; [intros H; lra|intros H; contradiction].
    + assert (D0 : 0 < d) by (destruct (Qlt_le_dec 0 d) as [H|H]; [exact H|exfalso; assert (H' : d == 0) by lra; apply Qeq_bool_iff in H'; congruence]).
      assert (HQ : 0 < n / d) by (apply Qlt_shift_div_l; [exact D0|lra]). split; [lra|]. rewrite <- HE. split; [intros H; lra|intros H; contradiction].
Qed.
