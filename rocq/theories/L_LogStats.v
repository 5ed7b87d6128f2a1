(* Summaries of finite values: minimum, mean, median, percentiles. *)
From Coq Require Import String Sorting.Sorted Permutation.
From Verif Require Import PyNum PyList PyMon PyRng PyStat L_Num L_List L_Rng L_NoveltyNum M_Matching M_Rule M_Mixing M_Fit M_Logging S_Logging L_LogMetrics.
From Coq Require Import Lqa.

(* ----- piecewise linear reading of a sorted list ----- *)
Lemma floor_facts v : 0 <= v -> qofnat (Z.to_nat (Qfloor v)) <= v /\ v < qofnat (Z.to_nat (Qfloor v)) + 1 /\ u01 v == v - qofnat (Z.to_nat (Qfloor v)).
Proof.
  intros H. assert (Hf : (0 <= Qfloor v)%Z) by (change 0%Z with (Qfloor 0); apply Qfloor_resp_le; exact H). unfold qofnat. rewrite Z2Nat.id by exact Hf.
  split; [apply Qfloor_le|]. split; [pose proof (Qlt_floor v) as HH; rewrite inject_Z_plus in HH; exact HH|]. unfold u01. reflexivity.
Qed.
Lemma qofnat_lt_inv a b : qofnat a < qofnat b -> (a < b)%nat.
Proof. unfold qofnat. rewrite <- Zlt_Qlt. lia. Qed.
Lemma reading_mid s v : s <> [] -> 0 <= v -> v < qofnat (length s - 1) ->
  let i := Z.to_nat (Qfloor v) in reading s v = nth i s 0 + (nth (S i) s 0 - nth i s 0) * u01 v /\ (S i < length s)%nat.
Proof.
  intros HN H0 H1. cbv zeta. unfold reading. cbv zeta. assert (E1 : qle (qofnat (length s - 1)) v = false) by (unfold qle; apply not_true_is_false; rewrite Qle_bool_iff; lra).
  assert (E2 : qlt v 0 = false) by (apply qlt_false; exact H0). rewrite E1, E2. split; [reflexivity|].
  destruct (floor_facts v H0) as (F1 & F2 & _). assert ((Z.to_nat (Qfloor v) < length s - 1)%nat) by (apply qofnat_lt_inv; lra). lia.
Qed.
Lemma reading_low s v : s <> [] -> v < 0 -> reading s v = nth 0 s 0.
Proof.
  intros HN H. unfold reading. cbv zeta. destruct (qle (qofnat (length s - 1)) v) eqn:E; [unfold qle in E; apply Qle_bool_iff in E; pose proof (qofnat_nonneg (length s - 1)); lra|].
  assert (E2 : qlt v 0 = true) by (apply qlt_iff; exact H). rewrite E2. reflexivity.
Qed.
Lemma reading_high s v : qofnat (length s - 1) <= v -> reading s v = nth (length s - 1) s 0.
Proof. intros H. unfold reading. cbv zeta. assert (E : qle (qofnat (length s - 1)) v = true) by (unfold qle; apply Qle_bool_iff; exact H). rewrite E. reflexivity. Qed.
Lemma sorted_le (s : list Q) i j : StronglySorted Qle s -> (i <= j)%nat -> (j < length s)%nat -> nth i s 0 <= nth j s 0.
Proof. intros HS. apply sorted_nth_le. exact HS. Qed.
Lemma reading_bounds s v : StronglySorted Qle s -> s <> [] -> nth 0 s 0 <= reading s v <= nth (length s - 1) s 0.
Proof.
  intros HS HN. assert (HL : (0 < length s)%nat) by (destruct s; [congruence|cbn; lia]). assert (HB : nth 0 s 0 <= nth (length s - 1) s 0) by (apply sorted_le; [exact HS|lia|lia]).
  destruct (Qlt_le_dec v (qofnat (length s - 1))) as [H1|H1]; [|rewrite reading_high by exact H1; lra]. destruct (Qlt_le_dec v 0) as [H0|H0]; [rewrite reading_low by assumption; lra|].
  destruct (reading_mid s v HN H0 H1) as [-> Hi]. set (i := Z.to_nat (Qfloor v)) in *. pose proof (u01_range v) as Hu.
  assert (A1 : nth 0 s 0 <= nth i s 0) by (apply sorted_le; [exact HS|lia|lia]). assert (A2 : nth i s 0 <= nth (S i) s 0) by (apply sorted_le; [exact HS|lia|lia]).
  assert (A3 : nth (S i) s 0 <= nth (length s - 1) s 0) by (apply sorted_le; [exact HS|lia|lia]). split; nra.
Qed.
Lemma reading_mono s v w : StronglySorted Qle s -> s <> [] -> v <= w -> reading s v <= reading s w.
Proof.
  intros HS HN H. destruct (reading_bounds s v HS HN) as [B1 B2]. destruct (reading_bounds s w HS HN) as [B3 B4].
  destruct (Qlt_le_dec w (qofnat (length s - 1))) as [Hw|Hw]; [|rewrite (reading_high s w) by exact Hw; exact B2].
  destruct (Qlt_le_dec v 0) as [Hv|Hv]; [rewrite (reading_low s v) by assumption; exact B3|].
  assert (Hv1 : v < qofnat (length s - 1)) by lra. assert (Hw0 : 0 <= w) by lra.
  destruct (reading_mid s v HN Hv Hv1) as [-> Hi]. destruct (reading_mid s w HN Hw0 Hw) as [-> Hj].
  destruct (floor_facts v Hv) as (F1 & F2 & F3). destruct (floor_facts w Hw0) as (G1 & G2 & G3).
  set (i := Z.to_nat (Qfloor v)) in *. set (j := Z.to_nat (Qfloor w)) in *. pose proof (u01_range v) as Hu. pose proof (u01_range w) as Hu'.
  assert (A2 : nth i s 0 <= nth (S i) s 0) by (apply sorted_le; [exact HS|lia|lia]). assert (A3 : nth j s 0 <= nth (S j) s 0) by (apply sorted_le; [exact HS|lia|lia]).
  destruct (Nat.lt_trichotomy i j) as [HC|[HC|HC]].
  - assert (A4 : nth (S i) s 0 <= nth j s 0) by (apply sorted_le; [exact HS|lia|lia]). nra.
  - rewrite <- HC in *. rewrite F3, G3. nra.
  - assert (qofnat (S j) <= qofnat i) by (apply L_LogMetrics.qofnat_le; lia). rewrite qofnat_S in H0. lra.
Qed.

(* ----- lists of finite values ----- *)
Lemma insert_fin x l : insert nlt (Fin x) (map Fin l) = map Fin (insert qlt x l).
Proof. induction l as [|a l IH]; [reflexivity|]. cbn. destruct (qlt a x); [cbn; rewrite IH; reflexivity|reflexivity]. Qed.
Lemma sort_fin l : PyList.sort nlt (map Fin l) = map Fin (PyList.sort qlt l).
Proof. induction l as [|a l IH]; [reflexivity|]. cbn. rewrite IH. apply insert_fin. Qed.
Lemma no_nan l : existsb is_nan (map Fin l) = false.
Proof. induction l as [|a l IH]; [reflexivity|]. exact IH. Qed.
Lemma nth_fin i l : (i < length l)%nat -> nth i (map Fin l) NaN = Fin (nth i l 0).
Proof. revert i. induction l as [|a l IH]; intros [|i] H; cbn in *; try lia; [reflexivity|]. apply IH. lia. Qed.
Lemma percentile_reading l c : l <> [] -> exists p, percentile_mu (map Fin l) c = Ok (Fin p) /\ p == reading (PyList.sort qlt l) (place (length l) (c / 100)).
Proof.
  intros HN. unfold percentile_mu. destruct (map Fin l) as [|x0 l0] eqn:EM; [destruct l; [congruence|discriminate]|]. rewrite <- EM. clear EM x0 l0.
  rewrite no_nan, sort_fin, map_length. set (s := PyList.sort qlt l). assert (Hs : length s = length l) by apply sort_length.
  assert (HsN : s <> []) by (intros E; rewrite E in Hs; destruct l; [congruence|discriminate]). assert (HL : (0 < length l)%nat) by (destruct l; [congruence|cbn; lia]).
  cbv zeta. fold (place (length l) (c / 100)). set (v := place (length l) (c / 100)). rewrite <- Hs.
  destruct (qle (qofnat (length s - 1)) v) eqn:E1.
  - unfold qle in E1. apply Qle_bool_iff in E1. rewrite nth_fin by lia. eexists. split; [reflexivity|]. rewrite reading_high by exact E1. reflexivity.
  - assert (H1 : v < qofnat (length s - 1)) by (unfold qle in E1; destruct (Qlt_le_dec v (qofnat (length s - 1))) as [|HH]; [assumption|apply Qle_bool_iff in HH; congruence]).
    destruct (qlt v 0) eqn:E2.
    + apply qlt_iff in E2. rewrite nth_fin by lia. eexists. split; [reflexivity|]. rewrite reading_low by assumption. reflexivity.
    + assert (H0 : 0 <= v) by (apply qlt_false; exact E2). destruct (reading_mid s v HsN H0 H1) as [-> Hi]. set (i := Z.to_nat (Qfloor v)) in *.
      rewrite (nth_fin i), (nth_fin (S i)) by lia. unfold lerp. cbn [nsub nadd nmul nneg]. destruct (qle (1 # 2) (u01 v)); cbn [nsub nadd nmul nneg]; eexists; (split; [reflexivity|]); ring.
Qed.
Lemma median_reading l : l <> [] -> exists p, nmedian (map Fin l) = Fin p /\ p == reading (PyList.sort qlt l) (place (length l) (1 # 2)).
Proof.
  intros HN. unfold nmedian. rewrite no_nan, sort_fin, map_length. set (s := PyList.sort qlt l). assert (Hs : length s = length l) by apply sort_length.
  assert (HL : (0 < length l)%nat) by (destruct l; [congruence|cbn; lia]). assert (HsN : s <> []) by (intros E; rewrite E in Hs; cbn in Hs; lia). cbv zeta. set (k := Nat.div2 (length l)).
  assert (HV : place (length l) (1 # 2) == (qofnat (length l) - 1) / 2) by (unfold place; field).
  destruct (Nat.odd (length l)) eqn:EO.
  - assert (Hk : length l = (2 * k + 1)%nat) by (unfold k; apply Nat.odd_spec in EO as [m Hm]; rewrite Hm; replace (2 * m + 1)%nat with (S (2 * m)) by lia; rewrite Nat.div2_succ_double; lia).
    rewrite nth_fin by lia. eexists. split; [reflexivity|].
    assert (HP : place (length l) (1 # 2) == qofnat k).
    { rewrite HV, Hk. unfold qofnat. rewrite Nat2Z.inj_add, Nat2Z.inj_mul, inject_Z_plus, inject_Z_mult. cbn. field. }
    assert (H0 : 0 <= place (length l) (1 # 2)) by (rewrite HP; apply qofnat_nonneg).
    destruct (Nat.eq_dec (length s) 1) as [H1|H1].
    + assert (k = 0%nat) by lia. rewrite reading_high by (rewrite HP, H1; cbn; apply qofnat_nonneg). rewrite H1, H. reflexivity.
    + assert (HK : place (length l) (1 # 2) < qofnat (length s - 1)) by (rewrite HP; unfold qofnat; rewrite <- Zlt_Qlt; lia).
      destruct (reading_mid s _ HsN H0 HK) as [-> Hi]. assert (EF : Z.to_nat (Qfloor (place (length l) (1 # 2))) = k).
      { rewrite (Qfloor_comp _ _ HP). unfold qofnat. rewrite Qfloor_Z. lia. }
      assert (EU : u01 (place (length l) (1 # 2)) == 0) by (unfold u01; rewrite (Qfloor_comp _ _ HP), HP; unfold qofnat; rewrite Qfloor_Z; ring).
      rewrite EU, EF. ring.
  - assert (Hk : length l = (2 * k)%nat) by (unfold k; rewrite <- Nat.negb_even in EO; apply negb_false_iff in EO; apply Nat.even_spec in EO as [m Hm]; rewrite Hm, Nat.div2_double; reflexivity).
    assert (HK : (0 < k)%nat) by lia. destruct (map Fin l) as [|x0 l0] eqn:EM; [destruct l; [congruence|discriminate]|]. clear EM.
    rewrite (nth_fin (k - 1)), (nth_fin k) by lia. cbn [nadd ndiv]. change (qeq 2 0) with false. cbn [negb]. eexists. split; [reflexivity|].
    assert (HP : place (length l) (1 # 2) == qofnat (k - 1) + (1 # 2)).
    { rewrite HV, Hk. unfold qofnat. rewrite Nat2Z.inj_sub, Nat2Z.inj_mul by lia. unfold Z.sub. rewrite inject_Z_mult, inject_Z_plus. cbn. field. }
    assert (H0 : 0 <= place (length l) (1 # 2)) by (rewrite HP; pose proof (qofnat_nonneg (k - 1)); lra).
    assert (HK2 : place (length l) (1 # 2) < qofnat (length s - 1)).
    { rewrite HP. assert (qofnat k <= qofnat (length s - 1)) by (apply L_LogMetrics.qofnat_le; lia). assert (E : qofnat k == qofnat (k - 1) + 1) by (replace k with (S (k - 1)) at 1 by lia; apply qofnat_S). lra. }
    destruct (reading_mid s _ HsN H0 HK2) as [-> Hi]. destruct (floor_facts _ H0) as (F1 & F2 & F3). assert (EF : Z.to_nat (Qfloor (place (length l) (1 # 2))) = (k - 1)%nat).
    { set (i := Z.to_nat (Qfloor (place (length l) (1 # 2)))) in *. assert ((i < S (k - 1))%nat) by (apply qofnat_lt_inv; rewrite qofnat_S; lra). assert ((k - 1 < S i)%nat) by (apply qofnat_lt_inv; rewrite qofnat_S; lra). lia. }
    rewrite F3, EF, HP. replace (S (k - 1)) with k by lia. field.
Qed.

(* ----- minimum, maximum, mean ----- *)
Lemma fold_max_fin (lt : num -> num -> bool) l : forall x, exists z, fold_left (max_step lt) (map Fin l) (Fin x) = Fin z /\ In z (x :: l).
Proof.
  induction l as [|a l IH]; intros x; [exists x; split; [reflexivity|left; reflexivity]|]. cbn [map fold_left]. unfold max_step at 2.
  destruct (lt (Fin x) (Fin a)); [destruct (IH a) as (z & H1 & H2)|destruct (IH x) as (z & H1 & H2)]; exists z; (split; [exact H1|]); cbn in *; tauto.
Qed.
Lemma fold_max_upper l : forall x z, fold_left (max_step nlt) (map Fin l) (Fin x) = Fin z -> forall v, In v (x :: l) -> v <= z.
Proof.
  induction l as [|a l IH]; intros x z H v Hv; cbn in H; [injection H as <-; destruct Hv as [->|[]]; lra|]. unfold max_step at 2 in H. cbn [nlt] in H.
  destruct (qlt x a) eqn:E.
  - assert (x < a) by (apply qlt_iff; exact E). pose proof (IH _ _ H) as HI. destruct Hv as [->|Hv]; [|exact (HI v Hv)]. specialize (HI a (or_introl eq_refl)). lra.
  - assert (a <= x) by (apply qlt_false; exact E). pose proof (IH _ _ H) as HI. pose proof (HI x (or_introl eq_refl)). destruct Hv as [->|[->|Hv]]; [lra|lra|]. apply HI. right. exact Hv.
Qed.
Lemma fold_min_lower l : forall x z, fold_left (max_step (fun a b => nlt b a)) (map Fin l) (Fin x) = Fin z -> forall v, In v (x :: l) -> z <= v.
Proof.
  induction l as [|a l IH]; intros x z H v Hv; cbn in H; [injection H as <-; destruct Hv as [->|[]]; lra|]. unfold max_step at 2 in H. cbn [nlt] in H.
  destruct (qlt a x) eqn:E.
  - assert (a < x) by (apply qlt_iff; exact E). pose proof (IH _ _ H) as HI. destruct Hv as [->|Hv]; [|exact (HI v Hv)]. specialize (HI a (or_introl eq_refl)). lra.
  - assert (x <= a) by (apply qlt_false; exact E). pose proof (IH _ _ H) as HI. pose proof (HI x (or_introl eq_refl)). destruct Hv as [->|[->|Hv]]; [lra|lra|]. apply HI. right. exact Hv.
Qed.
Lemma pymax_fin l : l <> [] -> exists z, pymax_num (map Fin l) = Ok (Fin z) /\ In z l /\ forall v, In v l -> v <= z.
Proof.
  intros HN. destruct l as [|x l]; [congruence|]. unfold pymax_num. cbn [map pymax of_option]. destruct (fold_max_fin nlt l x) as (z & H1 & H2). rewrite H1.
  exists z. split; [reflexivity|]. split; [exact H2|]. exact (fold_max_upper _ _ _ H1).
Qed.
Lemma pymin_fin l : l <> [] -> exists z, pymin_num (map Fin l) = Ok (Fin z) /\ In z l /\ forall v, In v l -> z <= v.
Proof.
  intros HN. destruct l as [|x l]; [congruence|]. unfold pymin_num. cbn [map pymax of_option]. destruct (fold_max_fin (fun a b => nlt b a) l x) as (z & H1 & H2). rewrite H1.
  exists z. split; [reflexivity|]. split; [exact H2|]. exact (fold_min_lower _ _ _ H1).
Qed.
Lemma nsum_fin l : exists t, nsum (map Fin l) = Fin t /\ t == qsum l.
Proof.
  unfold nsum. assert (H : forall a, exists t, fold_left nadd (map Fin l) (Fin a) = Fin t /\ t == a + qsum l).
  { induction l as [|x l IH]; intros a; [exists a; split; [reflexivity|cbn; ring]|]. cbn [map fold_left nadd]. destruct (IH (a + x)) as (t & H1 & H2). exists t. split; [exact H1|]. rewrite H2. cbn. unfold qsum. ring. }
  destruct (H 0) as (t & H1 & H2). exists t. split; [exact H1|]. rewrite H2. ring.
Qed.
Lemma pymean_fin l : l <> [] -> exists z, pymean (map Fin l) = Ok (Fin z) /\ z * qofnat (length l) == qsum l.
Proof.
  intros HN. unfold pymean. destruct (map Fin l) as [|x0 l0] eqn:EM; [destruct l; [congruence|discriminate]|]. rewrite <- EM. clear EM.
  unfold nmean, nlen. destruct (nsum_fin l) as (t & H1 & H2). rewrite H1, map_length. cbn [ndiv]. assert (HP : 0 < qofnat (length l)) by (apply qofnat_pos; destruct l; [congruence|cbn; lia]).
  assert (EZ : qeq (qofnat (length l)) 0 = false) by (unfold qeq; apply not_true_is_false; intros E; apply Qeq_bool_iff in E; lra). rewrite EZ. eexists. split; [reflexivity|].
  rewrite H2. field. lra.
Qed.
Lemma qsum_between l a b : (forall v, In v l -> a <= v <= b) -> a * qofnat (length l) <= qsum l <= b * qofnat (length l).
Proof.
  induction l as [|x l IH]; intros H; [cbn [length qsum fold_right]; change (qofnat 0) with 0; rewrite !Qmult_0_r; lra|]. cbn [length]. destruct (H x (or_introl eq_refl)). destruct (IH (fun v Hv => H v (or_intror Hv))) as [I1 I2]. change (qsum (x :: l)) with (x + qsum l). pose proof (qofnat_S (length l)) as HS. rewrite HS. rewrite !Qmult_plus_distr_r, !Qmult_1_r. lra.
Qed.

(* ----- what log_stats writes ----- *)
Lemma key_eqb_eq a b : key_eqb a b = true <-> a = b.
Proof. unfold key_eqb. rewrite andb_true_iff, String.eqb_eq, Nat.eqb_eq. destruct a, b; cbn. split; [intros [-> ->]; reflexivity|intros H; injection H as -> ->; auto]. Qed.
Lemma logged_same m k v : logged (log_metric m k v) k = Some v.
Proof.
  induction m as [|[k' w] m IH]; cbn; [rewrite (proj2 (key_eqb_eq k k) eq_refl); reflexivity|]. destruct (key_eqb k' k) eqn:E; cbn; rewrite E; [reflexivity|exact IH].
Qed.
Lemma logged_other m k v k2 : k <> k2 -> logged (log_metric m k v) k2 = logged m k2.
Proof.
  intros H. induction m as [|[k' w] m IH]; cbn.
  - destruct (key_eqb k k2) eqn:E; [apply key_eqb_eq in E; contradiction|reflexivity].
  - destruct (key_eqb k' k) eqn:E; cbn.
    + apply key_eqb_eq in E. subst. destruct (key_eqb k k2) eqn:E2; [apply key_eqb_eq in E2; contradiction|reflexivity].
    + destruct (key_eqb k' k2); [reflexivity|exact IH].
Qed.
Lemma append_inj (a b c : string) : (a ++ b = a ++ c)%string -> b = c.
Proof. induction a as [|x a IH]; cbn; [auto|]. intros H. injection H as H. exact (IH H). Qed.

(* the values a call of log_stats writes, and that it writes nothing else *)
Definition stat_suffixes : list string := ["_min"; "_mean"; "_max"; "_median"; "_percentile10"; "_percentile25"; "_percentile75"; "_percentile90"]%string.
Ltac other_key := rewrite logged_other; [|intros HK; injection HK as HK; apply append_inj in HK; discriminate].
Lemma log_stats_values step name vs m m' : log_stats step name vs m = Ok m' ->
  exists mn me mx p10 p25 p75 p90, pymin_num vs = Ok mn /\ pymean vs = Ok me /\ pymax_num vs = Ok mx /\
    percentile_mu vs 10 = Ok p10 /\ percentile_mu vs 25 = Ok p25 /\ percentile_mu vs 75 = Ok p75 /\ percentile_mu vs 90 = Ok p90 /\
    logged m' ((name ++ "_min")%string, step) = Some mn /\ logged m' ((name ++ "_mean")%string, step) = Some me /\
    logged m' ((name ++ "_max")%string, step) = Some mx /\ logged m' ((name ++ "_median")%string, step) = Some (nmedian vs) /\
    logged m' ((name ++ "_percentile10")%string, step) = Some p10 /\ logged m' ((name ++ "_percentile25")%string, step) = Some p25 /\
    logged m' ((name ++ "_percentile75")%string, step) = Some p75 /\ logged m' ((name ++ "_percentile90")%string, step) = Some p90 /\
    forall k, ~ In k (map (fun s => ((name ++ s)%string, step)) stat_suffixes) -> logged m' k = logged m k.
Proof.
  unfold log_stats. intros H. destruct (pymin_num vs) as [mn|]; cbn [rbind] in H; [|discriminate]. destruct (pymean vs) as [me|]; cbn [rbind] in H; [|discriminate].
  destruct (pymax_num vs) as [mx|]; cbn [rbind] in H; [|discriminate]. destruct (percentile_mu vs 10) as [p10|]; cbn [rbind] in H; [|discriminate].
  destruct (percentile_mu vs 25) as [p25|]; cbn [rbind] in H; [|discriminate]. destruct (percentile_mu vs 75) as [p75|]; cbn [rbind] in H; [|discriminate].
  destruct (percentile_mu vs 90) as [p90|]; cbn [rbind] in H; [|discriminate]. injection H as <-.
  exists mn, me, mx, p10, p25, p75, p90. do 7 (split; [reflexivity|]).
  do 8 (split; [repeat other_key; apply logged_same|]).
  intros k HK. rewrite !logged_other; [reflexivity|intros <-; apply HK; cbn; auto 20..].
Qed.
Lemma log_stats_ok step name qs m : qs <> [] -> exists m', log_stats step name (map Fin qs) m = Ok m'.
Proof.
  intros HN. unfold log_stats. destruct (pymin_fin qs HN) as (z & -> & _). cbn [rbind]. destruct (pymean_fin qs HN) as (z1 & -> & _). cbn [rbind].
  destruct (pymax_fin qs HN) as (z2 & -> & _). cbn [rbind].
  destruct (percentile_reading qs 10 HN) as (p1 & -> & _), (percentile_reading qs 25 HN) as (p2 & -> & _), (percentile_reading qs 75 HN) as (p3 & -> & _), (percentile_reading qs 90 HN) as (p4 & -> & _).
  cbn [rbind]. eauto.
Qed.
Lemma stats_ordered step name qs m : qs <> [] ->
  exists m' mn p10 p25 md p75 p90 mx me, log_stats step name (map Fin qs) m = Ok m' /\
    logged m' ((name ++ "_min")%string, step) = Some (Fin mn) /\ logged m' ((name ++ "_percentile10")%string, step) = Some (Fin p10) /\
    logged m' ((name ++ "_percentile25")%string, step) = Some (Fin p25) /\ logged m' ((name ++ "_median")%string, step) = Some (Fin md) /\
    logged m' ((name ++ "_percentile75")%string, step) = Some (Fin p75) /\ logged m' ((name ++ "_percentile90")%string, step) = Some (Fin p90) /\
    logged m' ((name ++ "_max")%string, step) = Some (Fin mx) /\ logged m' ((name ++ "_mean")%string, step) = Some (Fin me) /\
    In mn qs /\ (forall v, In v qs -> mn <= v) /\ In mx qs /\ (forall v, In v qs -> v <= mx) /\
    mn <= p10 /\ p10 <= p25 /\ p25 <= md /\ md <= p75 /\ p75 <= p90 /\ p90 <= mx /\
    me * qofnat (length qs) == qsum qs /\ mn <= me <= mx.
Proof.
  intros HN. destruct (log_stats_ok step name qs m HN) as (m' & HM). destruct (log_stats_values _ _ _ _ _ HM) as (mn & me & mx & p10 & p25 & p75 & p90 & E1 & E2 & E3 & E4 & E5 & E6 & E7 & L1 & L2 & L3 & L4 & L5 & L6 & L7 & L8 & _).
  destruct (pymin_fin qs HN) as (zn & F1 & In1 & B1). destruct (pymean_fin qs HN) as (ze & F2 & S2). destruct (pymax_fin qs HN) as (zx & F3 & In3 & B3).
  destruct (percentile_reading qs 10 HN) as (z1 & F4 & R1), (percentile_reading qs 25 HN) as (z2 & F5 & R2), (percentile_reading qs 75 HN) as (z3 & F6 & R3), (percentile_reading qs 90 HN) as (z4 & F7 & R4).
  destruct (median_reading qs HN) as (zm & F8 & R5).
  rewrite F1 in E1. rewrite F2 in E2. rewrite F3 in E3. rewrite F4 in E4. rewrite F5 in E5. rewrite F6 in E6. rewrite F7 in E7. rewrite F8 in L4.
  injection E1 as <-. injection E2 as <-. injection E3 as <-. injection E4 as <-. injection E5 as <-. injection E6 as <-. injection E7 as <-.
  set (s := PyList.sort qlt qs) in *. assert (HS : StronglySorted Qle s) by apply qsort_sorted. assert (Hs : length s = length qs) by apply sort_length.
  assert (HsN : s <> []) by (intros E; rewrite E in Hs; destruct qs; [congruence|discriminate]). assert (HL : (0 < length s)%nat) by (destruct s; [congruence|cbn; lia]).
  assert (Hmono : forall c d, c <= d -> reading s (place (length qs) c) <= reading s (place (length qs) d)).
  { intros c d Hcd. apply reading_mono; [exact HS|exact HsN|]. unfold place. pose proof (qofnat_nonneg (length qs)). nra. }
  assert (Hlow : zn <= nth 0 s 0) by (apply B1; apply (sort_In qlt); fold s; apply nth_In; lia).
  assert (Hhigh : nth (length s - 1) s 0 <= zx) by (apply B3; apply (sort_In qlt); fold s; apply nth_In; lia).
  exists m', zn, z1, z2, zm, z3, z4, zx, ze. split; [exact HM|]. do 8 (split; [assumption|]). do 4 (split; [assumption|]).
  pose proof (reading_bounds s (place (length qs) (10 / 100)) HS HsN) as [A1 _]. pose proof (reading_bounds s (place (length qs) (90 / 100)) HS HsN) as [_ A2].
  split; [rewrite R1; lra|]. split; [rewrite R1, R2; apply Hmono; reflexivity || (unfold Qle; cbn; lia)|].
  split; [rewrite R2, R5; apply Hmono; unfold Qle; cbn; lia|]. split; [rewrite R5, R3; apply Hmono; unfold Qle; cbn; lia|].
  split; [rewrite R3, R4; apply Hmono; unfold Qle; cbn; lia|]. split; [rewrite R4; lra|]. split; [exact S2|].
  assert (HP : 0 < qofnat (length qs)) by (apply qofnat_pos; lia). destruct (qsum_between qs zn zx) as [Q1 Q2]; [intros v Hv; split; [apply B1|apply B3]; exact Hv|]. rewrite <- S2 in Q1, Q2.
  split; [apply (Qmult_le_r _ _ (qofnat (length qs))); [exact HP|exact Q1]|apply (Qmult_le_r _ _ (qofnat (length qs))); [exact HP|exact Q2]].
Qed.
Lemma stats_exact step name qs m : qs <> [] ->
  exists m' p10 p25 md p75 p90, log_stats step name (map Fin qs) m = Ok m' /\
    logged m' ((name ++ "_percentile10")%string, step) = Some (Fin p10) /\ logged m' ((name ++ "_percentile25")%string, step) = Some (Fin p25) /\
    logged m' ((name ++ "_median")%string, step) = Some (Fin md) /\ logged m' ((name ++ "_percentile75")%string, step) = Some (Fin p75) /\
    logged m' ((name ++ "_percentile90")%string, step) = Some (Fin p90) /\
    p10 == percentile_of qs (1 # 10) /\ p25 == percentile_of qs (1 # 4) /\ md == percentile_of qs (1 # 2) /\ p75 == percentile_of qs (3 # 4) /\ p90 == percentile_of qs (9 # 10).
Proof.
  intros HN. destruct (log_stats_ok step name qs m HN) as (m' & HM). destruct (log_stats_values _ _ _ _ _ HM) as (mn & me & mx & p10 & p25 & p75 & p90 & E1 & E2 & E3 & E4 & E5 & E6 & E7 & L1 & L2 & L3 & L4 & L5 & L6 & L7 & L8 & _).
  destruct (percentile_reading qs 10 HN) as (z1 & F4 & R1), (percentile_reading qs 25 HN) as (z2 & F5 & R2), (percentile_reading qs 75 HN) as (z3 & F6 & R3), (percentile_reading qs 90 HN) as (z4 & F7 & R4).
  destruct (median_reading qs HN) as (zm & F8 & R5). rewrite F4 in E4. rewrite F5 in E5. rewrite F6 in E6. rewrite F7 in E7. rewrite F8 in L4.
  injection E4 as <-. injection E5 as <-. injection E6 as <-. injection E7 as <-.
  exists m', z1, z2, zm, z3, z4. unfold percentile_of. set (s := PyList.sort qlt qs) in *. assert (HS : StronglySorted Qle s) by apply qsort_sorted.
  assert (HsN : s <> []) by (intros E; pose proof (sort_length qlt qs) as HH; fold s in HH; rewrite E in HH; destruct qs; [congruence|discriminate]).
  assert (HEq : forall c d, c == d -> reading s (place (length qs) c) == reading s (place (length qs) d)).
  { intros c d Hcd. apply Qle_antisym; (apply reading_mono; [exact HS|exact HsN|]); unfold place; rewrite Hcd; lra. }
  repeat (split; [assumption|]). split; [rewrite R1; apply HEq; reflexivity|]. split; [rewrite R2; apply HEq; reflexivity|]. split; [exact R5|]. split; [rewrite R3; apply HEq; reflexivity|rewrite R4; apply HEq; reflexivity].
Qed.
