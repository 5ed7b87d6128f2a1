(* Novelty search: the numeric parts - hamming distance, mean of the nearest, percentile, sorting by a pair of keys. *)
From Coq Require Import Permutation Sorted.
From Verif Require Import PyNum PyList PyMon PyRng PyStat L_Num L_List L_Rng M_Novelty S_Novelty.
From Coq Require Import Lqa.

Definition unit (q : Q) : Prop := 0 <= q <= 1.

(* ----- hamming ----- *)
Lemma differing_count a b : differing a b = count_true (map2 xorb a b).
Proof.
  unfold differing. revert b; induction a as [|x a IH]; intros [|y b]; cbn; try reflexivity. rewrite <- IH. destruct x, y; reflexivity.
Qed.
Lemma count_map2_le (a b : list bool) : (count_true (map2 xorb a b) <= length a)%nat.
Proof. eapply Nat.le_trans; [apply count_true_le|]. rewrite map2_length_min. lia. Qed.
Definition hdist (a b : list bool) : Q := qofnat (count_true (map2 xorb a b)) / qofnat (length a).
Lemma hamming_eq a b : length a = length b -> a <> [] -> hamming a b = Ok (hdist a b).
Proof. intros H Ha. unfold hamming. rewrite H, Nat.eqb_refl. cbn [negb]. destruct a; [congruence|]. unfold hdist. rewrite H. reflexivity. Qed.
Lemma qofnat_len_pos {A} (a : list A) : a <> [] -> 0 < qofnat (length a).
Proof. intros H. apply qofnat_pos. destruct a; [congruence|cbn; lia]. Qed.
Lemma hdist_is a b : length a = length b -> a <> [] -> distance_is a b (hdist a b).
Proof.
  intros H Ha. split; [exact H|]. split; [exact Ha|]. change (inject_Z (Z.of_nat (length a))) with (qofnat (length a)).
  change (inject_Z (Z.of_nat (differing a b))) with (qofnat (differing a b)). rewrite differing_count.
  pose proof (qofnat_len_pos a Ha). unfold hdist. field. lra.
Qed.
Lemma hdist_unit a b : a <> [] -> unit (hdist a b).
Proof.
  intros Ha. pose proof (qofnat_len_pos a Ha) as Hp. pose proof (qofnat_nonneg (count_true (map2 xorb a b))) as H0.
  pose proof (proj1 (qofnat_le _ _) (count_map2_le a b)) as H1. unfold hdist. split.
  - apply Qle_shift_div_l; [exact Hp|]. lra.
  - apply Qle_shift_div_r; [exact Hp|]. lra.
Qed.
Lemma xorb_count_sym (a b : list bool) : count_true (map2 xorb a b) = count_true (map2 xorb b a).
Proof. revert b; induction a as [|x a IH]; intros [|y b]; cbn; try reflexivity. rewrite IH. destruct x, y; reflexivity. Qed.
Lemma hdist_sym a b : length a = length b -> hdist a b = hdist b a.
Proof. intros H. unfold hdist. rewrite xorb_count_sym, H. reflexivity. Qed.
Lemma hdist_self a : a <> [] -> hdist a a == 0.
Proof.
  intros Ha. unfold hdist. replace (count_true (map2 xorb a a)) with 0%nat; [pose proof (qofnat_len_pos a Ha); change (qofnat 0) with 0; field; lra|].
  induction a as [|x a IH]; cbn; [reflexivity|]. rewrite xorb_nilpotent. cbn. destruct a; [reflexivity|apply IH; discriminate].
Qed.

(* ----- generic sorting ----- *)
Section Sorting.
Context {A : Type} (lt : A -> A -> bool) (R : A -> A -> Prop) (ok : A -> Prop).
Hypothesis R_lt : forall a b, ok a -> ok b -> lt a b = true -> R a b.
Hypothesis R_ge : forall a b, ok a -> ok b -> lt a b = false -> R b a.
Hypothesis R_trans : forall a b c, ok a -> ok b -> ok c -> R a b -> R b c -> R a c.
Lemma insert_sorted_gen x l : ok x -> Forall ok l -> StronglySorted R l -> StronglySorted R (insert lt x l).
Proof.
  intros Hx Hl HS; induction HS as [|y l HS IH Hy]; cbn [insert]; [repeat constructor|].
  inversion Hl as [|? ? Hy' Hl']; subst. destruct (lt y x) eqn:E.
  - constructor; [apply IH; assumption|]. apply Forall_forall. intros z Hz.
    apply (Permutation_in z (insert_perm lt x l)) in Hz. destruct Hz as [<-|Hz]; [apply R_lt; assumption|].
    rewrite Forall_forall in Hy; auto.
  - assert (Hxy : R x y) by (apply R_ge; assumption). constructor; [constructor; assumption|]. constructor; [exact Hxy|].
    rewrite Forall_forall in *. intros z Hz. eapply (R_trans x y z); auto.
Qed.
Lemma sort_sorted_gen l : Forall ok l -> StronglySorted R (PyList.sort lt l).
Proof.
  induction l as [|x l IH]; intros H; cbn [PyList.sort]; [constructor|]. inversion H; subst.
  apply insert_sorted_gen; auto. eapply Permutation_Forall; [symmetry; apply sort_perm|assumption].
Qed.
End Sorting.
Lemma qsort_sorted l : StronglySorted Qle (PyList.sort qlt l).
Proof.
  apply (sort_sorted_gen qlt Qle (fun _ => True)).
  - intros a b _ _ H. apply qlt_iff in H. lra.
  - intros a b _ _ H. apply qlt_false in H. exact H.
  - intros a b c _ _ _. apply Qle_trans.
  - apply Forall_forall; auto.
Qed.

(* ----- the mean of the nearest ----- *)
Lemma qsum_le_len l : Forall (fun q => q <= 1) l -> qsum l <= qofnat (length l).
Proof.
  induction 1 as [|q l H HF IH]; [apply Qle_refl|]. change (qsum (q :: l)) with (q + qsum l). cbn [length]. rewrite qofnat_S. lra.
Qed.
Lemma mean_nearest_is k ds : mean_of_smallest (Nat.min k (length ds - 1)) ds (mean_nearest k ds).
Proof.
  set (n := Nat.min k (length ds - 1)). exists (firstn n (PyList.sort qlt ds)), (skipn n (PyList.sort qlt ds)).
  assert (HL : length (firstn n (PyList.sort qlt ds)) = n) by (rewrite firstn_length, sort_length; subst n; lia).
  split; [rewrite firstn_skipn; symmetry; apply sort_perm|]. split; [exact HL|].
  split; [intros a b Ha Hb; eapply (StronglySorted_app Qle); [rewrite firstn_skipn; apply qsort_sorted|exact Ha|exact Hb]|].
  unfold mean_nearest. fold n. destruct (Nat.eqb_spec n 0) as [E|E].
  - rewrite E. split; [reflexivity|intros _; reflexivity].
  - split; [|congruence]. change (inject_Z (Z.of_nat n)) with (qofnat n). assert (0 < qofnat n) by (apply qofnat_pos; lia). field. lra.
Qed.
Lemma mean_nearest_unit k ds : Forall unit ds -> unit (mean_nearest k ds).
Proof.
  intros HU. unfold mean_nearest. set (n := Nat.min k (length ds - 1)). destruct (Nat.eqb_spec n 0) as [E|E]; [split; lra|].
  assert (Hp : 0 < qofnat n) by (apply qofnat_pos; lia).
  assert (HF : Forall unit (firstn n (PyList.sort qlt ds))).
  { apply Forall_forall. intros q Hq. rewrite Forall_forall in HU. apply HU. apply In_firstn in Hq. apply sort_In in Hq. exact Hq. }
  assert (HL : length (firstn n (PyList.sort qlt ds)) = n) by (rewrite firstn_length, sort_length; subst n; lia).
  split.
  - apply Qle_shift_div_l; [exact Hp|]. assert (0 <= qsum (firstn n (PyList.sort qlt ds))) by (apply qsum_nonneg; revert HF; apply Forall_impl; unfold unit; intros; lra). lra.
  - apply Qle_shift_div_r; [exact Hp|]. pose proof (qsum_le_len (firstn n (PyList.sort qlt ds))) as HH. rewrite HL in HH.
    assert (Forall (fun q => q <= 1) (firstn n (PyList.sort qlt ds))) by (revert HF; apply Forall_impl; unfold unit; intros; lra). specialize (HH H). lra.
Qed.

(* ----- percentile ----- *)
Lemma sorted_nth_le (s : list Q) x : StronglySorted Qle s -> forall i j, (i <= j)%nat -> (j < length s)%nat -> nth i s x <= nth j s x.
Proof.
  induction 1 as [|a s HS IH HF]; intros i j Hij Hj; [cbn in Hj; lia|].
  destruct i as [|i], j as [|j]; cbn in *; try lra; try lia.
  - rewrite Forall_forall in HF. apply HF. apply nth_In. lia.
  - apply IH; lia.
Qed.
(* the percentile lies between two neighbours of the sorted list, the upper one at position ceil(q% of last) at most *)
Lemma percentile_between l q p : 0 <= q <= 100 -> l <> [] -> percentile l q = Ok p ->
  exists j, (j < length l)%nat /\ qofnat j < q / 100 * qofnat (length l - 1) + 1 /\ p <= nth j (PyList.sort qlt l) 0 /\ nth 0 (PyList.sort qlt l) 0 <= p.
Proof.
  intros Hq Hl H. unfold percentile in H.
  assert (E1 : qlt q 0 = false) by (apply qlt_false; lra). assert (E2 : qlt 100 q = false) by (apply qlt_false; lra). rewrite E1, E2 in H. cbn [orb] in H.
  destruct l as [|x l0]; [congruence|]. set (l := x :: l0) in *. set (s := PyList.sort qlt l) in *. set (last := (length l - 1)%nat) in *.
  cbv zeta in H. set (v := q / 100 * qofnat last) in *. set (i := Z.to_nat (Qfloor v)) in *.
  assert (Hs : length s = length l) by apply sort_length. assert (Hlen : (0 < length l)%nat) by (cbn; lia).
  assert (HS : StronglySorted Qle s) by apply qsort_sorted.
  assert (Hv0 : 0 <= v). { unfold v. apply Qmult_le_0_compat; [apply Qle_shift_div_l; lra|apply qofnat_nonneg]. }
  assert (Hv1 : v <= qofnat last). { unfold v. pose proof (qofnat_nonneg last). assert (q / 100 <= 1) by (apply Qle_shift_div_r; lra). assert (0 <= q / 100) by (apply Qle_shift_div_l; lra). nra. }
  assert (Hf0 : (0 <= Qfloor v)%Z). { change 0%Z with (Qfloor 0). apply Qfloor_resp_le. exact Hv0. }
  assert (Hi : qofnat i <= v). { unfold qofnat, i. rewrite Z2Nat.id by exact Hf0. apply Qfloor_le. }
  assert (Hi2 : v < qofnat i + 1). { unfold qofnat, i. rewrite Z2Nat.id by exact Hf0. pose proof (Qlt_floor v) as HH. rewrite inject_Z_plus in HH. exact HH. }
  assert (Hil : (i <= last)%nat). { apply qofnat_le. lra. }
  assert (Hn : forall k, (k < length l)%nat -> nth k s x = nth k s 0) by (intros k Hk; apply nth_indep; lia).
  assert (Hp : p = nth i s 0 + (nth (Nat.min (S i) last) s 0 - nth i s 0) * u01 v).
  { assert (E : Ok (nth i s x + (nth (Nat.min (S i) last) s x - nth i s x) * u01 v) = Ok p) by exact H.
    rewrite (Hn i), (Hn (Nat.min (S i) last)) in E by lia. congruence. }
  pose proof (u01_range v) as Hu. assert (Hle : nth i s 0 <= nth (Nat.min (S i) last) s 0) by (apply sorted_nth_le; [exact HS|lia|lia]).
  assert (H0 : nth 0 s 0 <= nth i s 0) by (apply sorted_nth_le; [exact HS|lia|lia]).
  assert (Hlow : nth i s 0 <= p) by (rewrite Hp; nra).
  destruct (Qlt_le_dec (qofnat i) v) as [Hlt|Heq].
  - exists (Nat.min (S i) last). split; [lia|]. split; [|split; [rewrite Hp; nra|lra]].
    assert (qofnat (Nat.min (S i) last) <= qofnat (S i)) by (apply qofnat_le; lia). rewrite qofnat_S in H1. fold v. lra.
  - exists i. assert (Huz : u01 v == 0).
    { unfold u01. assert (E : inject_Z (Qfloor v) == qofnat i) by (unfold qofnat, i; rewrite Z2Nat.id by exact Hf0; reflexivity). rewrite E. lra. }
    split; [lia|]. split; [fold v; lra|]. split; [rewrite Hp, Huz; lra|lra].
Qed.
Lemma percentile_total l q : 0 <= q <= 100 -> l <> [] -> exists p, percentile l q = Ok p.
Proof.
  intros Hq Hl. unfold percentile. assert (E1 : qlt q 0 = false) by (apply qlt_false; lra). assert (E2 : qlt 100 q = false) by (apply qlt_false; lra).
  rewrite E1, E2. cbn [orb]. destruct l; [congruence|]. eauto.
Qed.
(* at most c elements of a sorted list are below its element number c *)
Lemma sorted_below (s : list Q) : StronglySorted Qle s -> forall c p, (c < length s)%nat -> p <= nth c s 0 -> (length (filter (fun v => qlt v p) s) <= c)%nat.
Proof.
  induction 1 as [|a s HS IH HF]; intros c p Hc Hp; [cbn in Hc; lia|].
  destruct c as [|c].
  - cbn in Hp. assert (E : filter (fun v => qlt v p) (a :: s) = []); [|rewrite E; cbn; lia].
    assert (HA : Forall (fun v => qlt v p = false) (a :: s)).
    { constructor; [apply qlt_false; exact Hp|]. revert HF. apply Forall_impl. intros v Hv. apply qlt_false. lra. }
    clear -HA. induction HA as [|v l H HA IH]; [reflexivity|]. cbn [filter]. rewrite H. exact IH.
  - cbn [nth length] in *. cbn [filter]. specialize (IH c p ltac:(lia) Hp). destruct (qlt a p); cbn [length]; lia.
Qed.
Lemma filter_perm_length {A} (f : A -> bool) l m : Permutation l m -> length (filter f l) = length (filter f m).
Proof. induction 1; cbn; repeat (destruct (f _)); cbn; lia. Qed.

(* ----- pairs of keys ----- *)
Definition key_ok {B} (p : num * B) : Prop := is_nan (fst p) = false.
(* the pair is not smaller, lexicographically *)
Definition lex_ge {B} (geb : B -> B -> Prop) (a b : num * B) : Prop := nlt (fst b) (fst a) = true \/ (neqb (fst b) (fst a) = true /\ geb (snd a) (snd b)).
Lemma neqb_trans a b c : neqb a b = true -> neqb b c = true -> neqb a c = true.
Proof.
  destruct a as [a| | |], b as [b| | |], c as [c| | |]; cbn; try congruence. intros H1 H2. apply qeq_iff in H1, H2. apply qeq_iff. lra.
Qed.
Lemma neqb_sym a b : neqb a b = neqb b a.
Proof.
  destruct a as [a| | |], b as [b| | |]; cbn; try reflexivity. destruct (qeq_spec a b), (qeq_spec b a); try reflexivity; exfalso; lra.
Qed.
Lemma nlt_neqb_r a b c : nlt a b = true -> neqb b c = true -> nlt a c = true.
Proof.
  destruct a as [a| | |], b as [b| | |], c as [c| | |]; cbn; try congruence. intros H1 H2. apply qlt_iff in H1. apply qeq_iff in H2. apply qlt_iff. lra.
Qed.
Lemma nlt_neqb_l a b c : neqb a b = true -> nlt b c = true -> nlt a c = true.
Proof.
  destruct a as [a| | |], b as [b| | |], c as [c| | |]; cbn; try congruence. intros H1 H2. apply qeq_iff in H1. apply qlt_iff in H2. apply qlt_iff. lra.
Qed.
Lemma neqb_nle a b : neqb a b = true -> nle a b = true.
Proof. destruct a as [a| | |], b as [b| | |]; cbn; try congruence. intros H. apply qeq_iff in H. apply qle_iff. lra. Qed.
Lemma tri_num a b : is_nan a = false -> is_nan b = false -> nlt a b = false -> neqb a b = false -> nlt b a = true.
Proof.
  destruct a as [a| | |], b as [b| | |]; cbn; try congruence. intros _ _ H1 H2. apply qlt_false in H1. apply qeq_false in H2. apply qlt_iff.
  destruct (Qlt_le_dec b a); [assumption|]. exfalso. apply H2. lra.
Qed.
Section Lex.
Context {A B : Type} (key : A -> num * B) (ltb : B -> B -> bool) (geb : B -> B -> Prop) (okb : B -> Prop).
Hypothesis B_lt : forall a b, okb a -> okb b -> ltb a b = true -> geb b a.
Hypothesis B_ge : forall a b, okb a -> okb b -> ltb a b = false -> geb a b.
Hypothesis B_trans : forall a b c, okb a -> okb b -> okb c -> geb a b -> geb b c -> geb a c.
Lemma lex_sorted l : Forall (fun x => key_ok (key x) /\ okb (snd (key x))) l ->
  StronglySorted (fun a b => lex_ge geb (key a) (key b)) (sort_desc (fun a b => lex_lt ltb (key a) (key b)) l).
Proof.
  unfold sort_desc. apply (sort_sorted_gen _ _ (fun x => key_ok (key x) /\ okb (snd (key x)))).
  - intros a b [Na Oa] [Nb Ob] H. unfold lex_lt in H. apply orb_true_iff in H as [H|H]; [left; exact H|].
    apply andb_true_iff in H as [H1 H2]. right. split; [exact H1|auto].
  - intros a b [Na Oa] [Nb Ob] H. unfold lex_lt in H. apply orb_false_iff in H as [H1 H2].
    destruct (neqb (fst (key b)) (fst (key a))) eqn:E.
    + cbn in H2. right. split; [rewrite neqb_sym; exact E|auto].
    + left. apply tri_num; auto.
  - intros a b c [Na Oa] [Nb Ob] [Nc Oc] [H1|[H1 H1']] [H2|[H2 H2']].
    + left. eapply nlt_trans; eauto.
    + left. eapply nlt_neqb_l; eauto.
    + left. eapply nlt_neqb_r; eauto.
    + right. split; [eapply neqb_trans; eauto|eauto].
Qed.
End Lex.
