(* The rules of tests/test_mixing_model.py. *)
From Coq Require Import Lia Permutation Sorted.
From Verif Require Import PyNum PyList PyMon PyRng L_Num L_List L_Rng M_Matching M_Rule M_RuleGen M_Mixing M_Discovery M_Fit M_Shipped S_Filters L_Filters L_MixingProps S_Tested.
From Coq Require Import Lqa.

Section Mix.
Variable L : learner.
Implicit Types rs : list (rule L).
Notation key := (fit_or_nan L).
Lemma numbered_key i (r : rule L) : numbered i r -> key r = Fin (Z.of_nat i # 100).
Proof. intros (a & H1 & H2 & _). unfold fit_or_nan. rewrite H1. exact H2. Qed.
Lemma z_lt i j : (i < j)%nat -> nlt (Fin (Z.of_nat i # 100)) (Fin (Z.of_nat j # 100)) = true.
Proof. intros H. cbn. apply qlt_iff. unfold Qlt. cbn. lia. Qed.
Lemma numbered_ge i n (l : list (rule L)) : Forall2 numbered (seq i n) l -> Forall (fun r => exists j, (i <= j)%nat /\ (j < i + n)%nat /\ numbered j r) l.
Proof.
  revert i l. induction n as [|n IH]; intros i l H; inversion H as [|a r s t H1 H2]; subst; constructor; [exists i; split; [lia|split; [lia|exact H1]]|].
  eapply Forall_impl; [|apply IH; exact H2]. intros q (j & A & B & C). exists j. split; [lia|]. split; [lia|exact C].
Qed.
Lemma numbered_pairs i n (l : list (rule L)) : Forall2 numbered (seq i n) l -> ForallOrdPairs (fun a b => nlt (key a) (key b) = true) l.
Proof.
  revert i l. induction n as [|n IH]; intros i l H; inversion H as [|a r s t H1 H2]; subst; [constructor|]. constructor; [|eapply IH; exact H2].
  apply numbered_ge in H2. eapply Forall_impl; [|exact H2]. intros q (j & A & _ & C). cbv beta. rewrite (numbered_key _ _ H1), (numbered_key _ _ C). apply z_lt. lia.
Qed.
Lemma pairs_sorted (l : list (rule L)) : ForallOrdPairs (fun a b => nlt (key a) (key b) = true) l -> StronglySorted (fun a b => nle (key a) (key b) = true) l.
Proof. induction 1 as [|a l H1 H2 IH]; constructor; [exact IH|]. eapply Forall_impl; [|exact H1]. intros b. apply nlt_nle. Qed.
Lemma pairs_either (l : list (rule L)) : ForallOrdPairs (fun a b => nlt (key a) (key b) = true) l -> ForallOrdPairs (fun a b => nlt (key a) (key b) = true \/ nlt (key b) (key a) = true) l.
Proof. induction 1 as [|a l H1 H2 IH]; constructor; [|exact IH]. eapply Forall_impl; [|exact H1]. intros b H. left. exact H. Qed.
Lemma all_numbered n rs : shuffled n rs -> Forall (fun r => exists j, (j < n)%nat /\ numbered j r) rs.
Proof.
  intros (o & HP & H). apply numbered_ge in H. eapply Permutation_Forall; [apply Permutation_sym; exact HP|]. eapply Forall_impl; [|exact H]. intros r (j & _ & A & B). exists j. split; [lia|exact B].
Qed.
Lemma shuffled_sort n rs o : Permutation rs o -> Forall2 numbered (seq 0 n) o -> PyList.sort (fun a b => nlt (key a) (key b)) rs = o.
Proof.
  intros HP H. pose proof (numbered_pairs _ _ _ H) as HO. symmetry. apply (sorted_perm_eq key); [|apply pairs_sorted; exact HO| |apply pairs_either; exact HO].
  - eapply perm_trans; [apply Permutation_sym; exact HP|]. apply Permutation_sym, sort_perm.
  - apply sort_sorted. eapply Permutation_Forall; [apply Permutation_sym; exact HP|]. apply numbered_ge in H. eapply Forall_impl; [|exact H]. intros r (j & _ & _ & Hj). cbv beta. rewrite (numbered_key _ _ Hj). reflexivity.
Qed.
Lemma forall2_skipn {A B} (R : A -> B -> Prop) k l m : Forall2 R l m -> Forall2 R (skipn k l) (skipn k m).
Proof. intros H. revert k. induction H; intros k; destruct k; cbn; auto. Qed.
Lemma skipn_seq k i n : skipn k (seq i n) = seq (i + k) (n - k).
Proof. revert i n. induction k as [|k IH]; intros i n; [cbn; rewrite Nat.add_0_r, Nat.sub_0_r; reflexivity|]. destruct n as [|n]; [reflexivity|]. cbn [seq skipn Nat.sub]. rewrite IH. f_equal. lia. Qed.
Lemma fitness_total n rs : shuffled n rs -> exists fs, rmap (fitness_of L) rs = Ok fs.
Proof.
  intros H. apply all_numbered in H. induction H as [|r rs (j & _ & a & H1 & _) H IH]; [exists []; reflexivity|]. destruct IH as (fs & E).
  cbn [rmap]. unfold fitness_of, get_att. rewrite H1. cbn [of_option rbind]. unfold fitness_of, get_att in E. rewrite E. cbn. eauto.
Qed.
Lemma best_of n k rs g : shuffled n rs -> (0 < k <= n)%nat -> exists out, apply_filter L (NBestFitness k) rs g = (Ok out, g) /\ Forall2 numbered (seq (n - k) k) out.
Proof.
  intros HS Hk. pose proof HS as (o & HP & H). destruct (fitness_total n rs HS) as (fs & E). cbn [apply_filter]. rewrite E. cbn [rbind]. rewrite (shuffled_sort n rs o HP H).
  exists (last_n k o). split; [reflexivity|]. unfold last_n. destruct (Nat.eqb_spec k 0); [lia|].
  assert (HL : length o = n) by (pose proof (L_List.Forall2_len _ _ _ H) as H2; rewrite seq_length in H2; congruence).
  rewrite HL. apply (forall2_skipn _ (n - k)) in H. rewrite skipn_seq in H. replace (n - (n - k))%nat with k in H by lia. exact H.
Qed.
Definition positive (r : rule L) : bool := nlt (Fin 0) (key r).
Lemma separated_count rs good : separated L rs good -> length good = length (filter positive rs).
Proof.
  induction 1 as [|r rs good (a & q & H1 & H2 & H3) HS IH|r rs good (a & q & H1 & H2 & H3) HS IH]; [reflexivity| |]; cbn [filter]; unfold positive at 1, fit_or_nan; rewrite H1, H2; cbn [nlt].
  - rewrite (proj2 (qlt_iff 0 q) H3). cbn. congruence.
  - destruct (qlt_spec 0 q); [lra|]. exact IH.
Qed.
Lemma perm_filter {A} (f : A -> bool) l m : Permutation l m -> length (filter f l) = length (filter f m).
Proof. induction 1; cbn; auto; [destruct (f x); cbn; congruence|destruct (f x), (f y); reflexivity|congruence]. Qed.
Lemma positive_count i n (l : list (rule L)) : Forall2 numbered (seq (S i) n) l -> length (filter positive l) = n.
Proof.
  revert i l. induction n as [|n IH]; intros i l H; inversion H as [|a r s t H1 H2]; subst; [reflexivity|]. cbn [filter]. unfold positive at 1. rewrite (numbered_key _ _ H1).
  assert (E : nlt (Fin 0) (Fin (Z.of_nat (S i) # 100)) = true) by (unfold nlt; apply qlt_iff; unfold Qlt; cbn; lia). rewrite E. cbn [length]. f_equal. exact (IH (S i) _ H2).
Qed.
Lemma wheel_of n k rs g : shuffled n rs -> (0 < k < n)%nat -> exists out g', apply_filter L (RouletteWheel k) rs g = (Ok out, g') /\ length out = k /\ Forall (fun r => exists j, (0 < j)%nat /\ (j < n)%nat /\ numbered j r) out.
Proof.
  intros HS Hk. pose proof (all_numbered n rs HS) as HA.
  assert (HGr : Forall (graded L) rs). { eapply Forall_impl; [|exact HA]. intros r (j & _ & a & H1 & H2 & _). exists a, (Z.of_nat j # 100). split; [exact H1|]. split; [exact H2|]. unfold Qle. cbn. lia. }
  destruct (graded_separated rs HGr) as (good & HG). pose proof (separated_count _ _ HG) as HC. pose proof HS as (o & HP & H). rewrite (perm_filter positive _ _ HP) in HC.
  assert (HLn : length rs = n) by (rewrite (Permutation_length HP); pose proof (L_List.Forall2_len _ _ _ H) as H2; rewrite seq_length in H2; congruence).
  destruct n as [|n]; [lia|]. inversion H as [|a r s t H1 H2]; subst. cbn [filter] in HC. unfold positive at 1 in HC. rewrite (numbered_key _ _ H1) in HC. cbn [nlt] in HC.
  assert (E0 : qlt 0 (Z.of_nat 0 # 100) = false) by reflexivity. rewrite E0 in HC. rewrite (positive_count _ _ _ H2) in HC.
  destruct (roulette_total k rs good g HG) as (out & g' & E & HO).
  - intros ->. cbn in HC. lia.
  - rewrite HLn. lia.
  - exists out, g'. split; [exact E|]. destruct HO as [HO1 (rest & HO2)]. split; [rewrite HO1, HLn; lia|].
    assert (HIn : forall r, In r good -> In r rs /\ promising L r).
    { clear - HG. intros r Hr. split; [|pose proof (promising_nth _ _ HG) as HPn; rewrite Forall_forall in HPn; auto]. revert Hr. induction HG; cbn; intros HX; auto; destruct HX; auto. }
    apply Forall_forall. intros q Hq. assert (Hq2 : In q good) by (eapply Permutation_in; [apply Permutation_sym; exact HO2|apply in_or_app; auto]).
    destruct (HIn q Hq2) as [A (a & z & B1 & B2 & B3)]. rewrite Forall_forall in HA. destruct (HA q A) as (j & Hj & Hn). exists j. split; [|auto].
    destruct Hn as (a' & C1 & C2 & _). assert (a' = a) by congruence. subst a'. rewrite C2 in B2. injection B2 as <-. destruct j; [|lia]. exfalso. unfold Qlt in B3. cbn in B3. lia.
Qed.

(* ----- experiences ----- *)
Lemma qofnat_le i j : (i <= j)%nat -> qofnat i <= qofnat j.
Proof. intros H. unfold qofnat, Qle. cbn. lia. Qed.
Lemma has_number n rs j : shuffled n rs -> (j < n)%nat -> exists r, In r rs /\ numbered j r.
Proof.
  intros (o & HP & H) Hj. assert (HX : exists r, In r o /\ numbered j r).
  { assert (HI : In j (seq 0 n)) by (apply in_seq; lia). revert HI. clear HP. induction H as [|a r s t H1 H2 IH]; intros HI; [destruct HI|]. destruct HI as [->|HI]; [exists r; split; [left; reflexivity|exact H1]|].
    destruct (IH HI) as (q & A & B). exists q. split; [right; exact A|exact B]. }
  destruct HX as (r & A & B). exists r. split; [eapply Permutation_in; [apply Permutation_sym; exact HP|exact A]|exact B].
Qed.
Lemma exps_have n rs c dim j : shuffled n rs -> (j < n)%nat -> In (calc_exp c dim (qofnat j)) (experiences c dim rs).
Proof. intros HS Hj. destruct (has_number n rs j HS Hj) as (r & A & (a & B & _ & C & _)). unfold experiences. apply in_map_iff. exists r. rewrite B, C. auto. Qed.
Lemma exps_only n rs c dim x : shuffled n rs -> In x (experiences c dim rs) -> exists j, (j < n)%nat /\ x = calc_exp c dim (qofnat j).
Proof. intros HS Hx. apply in_map_iff in Hx as (r & <- & Hr). apply all_numbered in HS. rewrite Forall_forall in HS. destruct (HS r Hr) as (j & Hj & a & B & _ & C & _). exists j. rewrite B, C. auto. Qed.
Lemma largest_of n rs c dim v : shuffled n rs -> (exists j, (j < n)%nat /\ calc_exp c dim (qofnat j) == v) -> (forall j, (j < n)%nat -> calc_exp c dim (qofnat j) <= v) -> largest v (experiences c dim rs).
Proof.
  intros HS (j & Hj & Hv) HA. split; [apply Exists_exists; eexists; split; [apply (exps_have n rs c dim j HS Hj)|exact Hv]|].
  apply Forall_forall. intros x Hx. destruct (exps_only n rs c dim x HS Hx) as (i & Hi & ->). auto.
Qed.
Lemma smallest_of n rs c dim v : shuffled n rs -> (exists j, (j < n)%nat /\ calc_exp c dim (qofnat j) == v) -> (forall j, (j < n)%nat -> v <= calc_exp c dim (qofnat j)) -> smallest v (experiences c dim rs).
Proof.
  intros HS (j & Hj & Hv) HA. split; [apply Exists_exists; eexists; split; [apply (exps_have n rs c dim j HS Hj)|exact Hv]|].
  apply Forall_forall. intros x Hx. destruct (exps_only n rs c dim x HS Hx) as (i & Hi & ->). auto.
Qed.
Lemma qmin_spec a b : qmin a b <= a /\ qmin a b <= b /\ (qmin a b == a \/ qmin a b == b).
Proof. unfold qmin. destruct (qle a b) eqn:E; [apply qle_iff in E|apply qle_false in E]; (split; [lra|split; [lra|]]); [left|right]; lra. Qed.
Lemma qmax_spec a b : a <= qmax a b /\ b <= qmax a b /\ (qmax a b == a \/ qmax a b == b).
Proof. unfold qmax. destruct (qle a b) eqn:E; [apply qle_iff in E|apply qle_false in E]; (split; [lra|split; [lra|]]); [right|left]; lra. Qed.
Lemma cap_both l u x : l <= u -> l <= cap (Some l) (Some u) x <= u /\ (x <= l -> cap (Some l) (Some u) x == l) /\ (u <= x -> cap (Some l) (Some u) x == u) /\ (l <= x <= u -> cap (Some l) (Some u) x == x).
Proof.
  intros H. unfold cap. destruct (qmax_spec x l) as (A1 & A2 & A3). destruct (qmin_spec (qmax x l) u) as (B1 & B2 & B3). set (m := qmax x l) in *. set (z := qmin m u) in *. clearbody z m.
  repeat split; intros; destruct A3, B3; lra.
Qed.
Lemma capped n rs dim l u : shuffled n rs -> l <= u -> 0 <= l -> (0 < n)%nat -> smallest l (experiences (CapExperience (Some l) (Some u)) dim rs) /\
  (u <= qofnat (n - 1) -> largest u (experiences (CapExperience (Some l) (Some u)) dim rs)) /\ (l <= qofnat (n - 1) -> qofnat (n - 1) <= u -> largest (qofnat (n - 1)) (experiences (CapExperience (Some l) (Some u)) dim rs)).
Proof.
  intros HS Hlu Hl Hn. assert (Hq0 : qofnat 0 == 0) by reflexivity. split; [|split].
  - apply (smallest_of n); [exact HS| |intros j _; apply (cap_both l u (qofnat j) Hlu)]. exists 0%nat. split; [exact Hn|]. apply (cap_both l u (qofnat 0) Hlu). lra.
  - intros Hu. apply (largest_of n); [exact HS| |intros j _; apply (cap_both l u (qofnat j) Hlu)]. exists (n - 1)%nat. split; [lia|]. apply (cap_both l u _ Hlu). exact Hu.
  - intros H1 H2. apply (largest_of n); [exact HS| |].
    + exists (n - 1)%nat. split; [lia|]. apply (cap_both l u _ Hlu). lra.
    + intros j Hj. cbn [calc_exp]. destruct (cap_both l u (qofnat j) Hlu) as (A & B & C & D). assert (Hjn : qofnat j <= qofnat (n - 1)) by (apply qofnat_le; lia).
      destruct (Qlt_le_dec (qofnat j) l) as [E|E]; [rewrite B by lra; exact H1|]. rewrite D by lra. exact Hjn.
Qed.
Lemma dim_is_cap l u dim rs : experiences (CapExperienceWithDimensionality (Some l) (Some u)) dim rs = experiences (CapExperience (Some (l * qofnat dim)) (Some (u * qofnat dim))) dim rs.
Proof. reflexivity. Qed.
End Mix.
Section Sum.
Variable L : learner.
Lemma random_of n k (rs : list (rule L)) g : shuffled n rs -> (0 < k < n)%nat -> exists out g', apply_filter L (NRandom k) rs g = (Ok out, g') /\ length out = k /\ exists rest, Permutation rs (out ++ rest).
Proof.
  intros HS Hk. assert (HLn : length rs = n) by (destruct HS as (o & HP & H); rewrite (Permutation_length HP); pose proof (L_List.Forall2_len _ _ _ H) as H2; rewrite seq_length in H2; congruence).
  destruct (nrandom_total k rs g) as (out & g' & E & HO1 & rest & HO2). exists out, g'. split; [exact E|]. split; [|exists rest; exact HO2]. rewrite HO1, HLn. lia.
Qed.
Lemma as_is n (rs : list (rule L)) dim : shuffled n rs -> Permutation (experiences ExpAsIs dim rs) (map qofnat (seq 0 n)).
Proof.
  intros (o & HP & H). unfold experiences. eapply perm_trans; [apply Permutation_map; exact HP|]. clear HP. match goal with |- Permutation ?a ?b => assert (a = b) as -> end; [|reflexivity].
  induction H as [|i r l m (a & H1 & _ & H2 & _) H IH]; [reflexivity|]. cbn [map]. rewrite IH, H1, H2. reflexivity.
Qed.
Lemma capped_test i (rs : list (rule L)) dim : shuffled 100 rs -> (i < 100)%nat -> largest (qofnat i) (experiences (CapExperience (Some (qofnat i / 2)) (Some (qofnat i))) dim rs) /\ smallest (qofnat i / 2) (experiences (CapExperience (Some (qofnat i / 2)) (Some (qofnat i))) dim rs).
Proof.
  intros HS Hi. assert (H0 : 0 <= qofnat i) by (unfold qofnat, Qle; cbn; lia). destruct (capped L 100 rs dim (qofnat i / 2) (qofnat i) HS) as (A & B & _).
  - apply Qle_shift_div_r; lra.
  - apply Qle_shift_div_l; lra.
  - lia.
  - split; [|exact A]. apply B. apply qofnat_le. lia.
Qed.
Lemma dims_test (rs : list (rule L)) : shuffled 100 rs -> Forall (fun t : nat * nat * nat => let '(dim, hi, lo) := t in largest (qofnat hi) (experiences (CapExperienceWithDimensionality (Some 5) (Some 20)) dim rs) /\ smallest (qofnat lo) (experiences (CapExperienceWithDimensionality (Some 5) (Some 20)) dim rs)) [(2, 40, 10); (4, 80, 20); (6, 99, 30)]%nat.
Proof.
  intros HS. assert (HG : forall a b, a = b -> qofnat a == qofnat b) by (intros a b ->; reflexivity).
  repeat (apply Forall_cons); [| | |apply Forall_nil]; cbv beta iota; rewrite dim_is_cap.
  - destruct (capped L 100 rs 2 (5 * qofnat 2) (20 * qofnat 2) HS) as ((A1 & A2) & B & _); [vm_compute; discriminate|vm_compute; discriminate|lia|]. destruct B as [B1 B2]; [vm_compute; discriminate|].
    split; split; [exact B1|exact B2|exact A1|exact A2].
  - destruct (capped L 100 rs 4 (5 * qofnat 4) (20 * qofnat 4) HS) as ((A1 & A2) & B & _); [vm_compute; discriminate|vm_compute; discriminate|lia|]. destruct B as [B1 B2]; [vm_compute; discriminate|].
    split; split; [exact B1|exact B2|exact A1|exact A2].
  - destruct (capped L 100 rs 6 (5 * qofnat 6) (20 * qofnat 6) HS) as ((A1 & A2) & _ & B); [vm_compute; discriminate|vm_compute; discriminate|lia|]. destruct B as [B1 B2]; [vm_compute; discriminate|vm_compute; discriminate|].
    split; split; [exact B1|exact B2|exact A1|exact A2].
Qed.
(* such rules exist *)
Definition test_rule (i : nat) : rule L := mkRule (mkMatching OrderedBound [(-(1), 1)]) None (Some (mkAtts true (Fin (1 # 100)) (Fin (Z.of_nat i # 100)) (qofnat i) [] [])).
Lemma test_rules : shuffled 100 (rev (map test_rule (seq 0 100))).
Proof.
  exists (map test_rule (seq 0 100)). split; [apply Permutation_sym, Permutation_rev|]. generalize (seq 0 100). intros l. induction l as [|i l IH]; cbn [map]; constructor; [|exact IH].
  eexists. split; [reflexivity|]. split; [reflexivity|]. split; reflexivity.
Qed.
End Sum.
