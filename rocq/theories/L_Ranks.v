(* Ranks by double argsort, weighted choice. *)
From Coq Require Import Lia Permutation Sorted.
From Verif Require Import PyNum PyList PyMon PyRng PyStat L_Num L_List L_Rng M_Matching M_Rule M_Mixing M_Solution M_GenomeOps S_GenomeOps.

(* ----- argsort ----- *)
Lemma map_snd_combine {A B} (l : list A) (m : list B) : length l = length m -> map snd (combine l m) = m.
Proof. revert m; induction l as [|a l IH]; intros [|b m] H; simpl in *; try lia; auto. f_equal. apply IH. lia. Qed.
Lemma map_fst_combine {A B} (l : list A) (m : list B) : length l = length m -> map fst (combine l m) = l.
Proof. revert m; induction l as [|a l IH]; intros [|b m] H; simpl in *; try lia; auto. f_equal. apply IH. lia. Qed.
Lemma argsort_perm {A} (lt : A -> A -> bool) l : Permutation (argsort lt l) (seq 0 (length l)).
Proof.
  unfold argsort. rewrite <- (map_snd_combine l (seq 0 (length l))) at 2 by (rewrite seq_length; auto).
  apply Permutation_map, sort_perm.
Qed.
Lemma argsort_length {A} (lt : A -> A -> bool) l : length (argsort lt l) = length l.
Proof. rewrite (Permutation_length (argsort_perm lt l)). apply seq_length. Qed.
Lemma combine_seq_In {A} (l : list A) i x k : In (x, k) (combine l (seq i (length l))) -> nth_error l (k - i) = Some x /\ (i <= k)%nat.
Proof.
  revert i. induction l as [|a l IH]; intros i; simpl; [tauto|]. intros [H|H].
  - inversion H; subst. rewrite Nat.sub_diag. auto.
  - apply IH in H as [H1 H2]. split; [|lia]. replace (k - i)%nat with (S (k - S i)) by lia. exact H1.
Qed.
Lemma argsort_pairs {A} (lt : A -> A -> bool) l j k : nth_error (argsort lt l) j = Some k ->
  exists x, nth_error (PyList.sort (fun a b => lt (fst a) (fst b)) (combine l (seq 0 (length l)))) j = Some (x, k) /\ nth_error l k = Some x.
Proof.
  unfold argsort. intros H. rewrite nth_error_map in H.
  destruct (nth_error (PyList.sort _ _) j) as [[x k']|] eqn:E; [|discriminate]. inversion H; subst k'.
  exists x. split; auto. apply nth_error_In in E. apply (Permutation_in _ (sort_perm _ _)) in E.
  apply combine_seq_In in E as [E _]. rewrite Nat.sub_0_r in E. exact E.
Qed.
Lemma sorted_nth {A} (R : A -> A -> Prop) l : StronglySorted R l ->
  forall i j x y, (i < j)%nat -> nth_error l i = Some x -> nth_error l j = Some y -> R x y.
Proof.
  induction 1 as [|a l HS IH HF]; intros [|i] [|j] x y Hij Hx Hy; simpl in *; try lia; try discriminate.
  - inversion Hx; subst. rewrite Forall_forall in HF. apply HF. eapply nth_error_In; eauto.
  - eapply IH; [|eauto|eauto]. lia.
Qed.
Lemma argsort_sorted l : Forall (fun f => is_nan f = false) l ->
  forall i j ki kj x y, (i < j)%nat -> nth_error (argsort nlt l) i = Some ki -> nth_error (argsort nlt l) j = Some kj ->
    nth_error l ki = Some x -> nth_error l kj = Some y -> nle x y = true.
Proof.
  intros HN i j ki kj x y Hij Hi Hj Hx Hy.
  apply argsort_pairs in Hi as (x' & Hi & Hx'). apply argsort_pairs in Hj as (y' & Hj & Hy').
  assert (x' = x) by congruence. assert (y' = y) by congruence. subst x' y'.
  assert (HS : StronglySorted (fun a b => nle (fst a) (fst b) = true) (PyList.sort (fun a b : num * nat => nlt (fst a) (fst b)) (combine l (seq 0 (length l))))).
  { apply (sort_sorted (fun a : num * nat => fst a)). apply Forall_forall. intros [f k] H. apply in_combine_l in H. rewrite Forall_forall in HN. apply HN; auto. }
  apply (sorted_nth _ _ HS i j (x, ki) (y, kj)); auto.
Qed.

(* sorting a list of naturals *)
Lemma insert_sorted_nat {B} (x : nat * B) l : StronglySorted (fun a b => (fst a <= fst b)%nat) l ->
  StronglySorted (fun a b => (fst a <= fst b)%nat) (PyList.insert (fun a b => Nat.ltb (fst a) (fst b)) x l).
Proof.
  induction 1 as [|y l HS IH HF]; simpl; [repeat constructor|].
  destruct (Nat.ltb_spec (fst y) (fst x)).
  - constructor; auto. apply Forall_forall. intros z Hz. apply (Permutation_in z (insert_perm _ x l)) in Hz.
    destruct Hz as [<-|Hz]; [lia|]. rewrite Forall_forall in HF; auto.
  - constructor; [constructor; auto|]. constructor; [lia|]. rewrite Forall_forall in *. intros z Hz. specialize (HF z Hz). lia.
Qed.
Lemma sort_sorted_nat {B} (l : list (nat * B)) :
  StronglySorted (fun a b => (fst a <= fst b)%nat) (PyList.sort (fun a b => Nat.ltb (fst a) (fst b)) l).
Proof. induction l as [|x l IH]; simpl; [constructor|]. apply insert_sorted_nat; auto. Qed.
Lemma sorted_map_fst {B} (l : list (nat * B)) : StronglySorted (fun a b => (fst a <= fst b)%nat) l -> StronglySorted le (map fst l).
Proof.
  induction 1 as [|x l HS IH HF]; simpl; constructor; auto. apply Forall_forall. intros k Hk. apply in_map_iff in Hk as (z & <- & Hz).
  rewrite Forall_forall in HF; auto.
Qed.
Lemma sorted_perm_unique (l m : list nat) : StronglySorted le l -> StronglySorted le m -> Permutation l m -> l = m.
Proof.
  revert m. induction l as [|a l IH]; intros m Hl Hm HP.
  - apply Permutation_nil in HP. auto.
  - destruct m as [|b m]; [symmetry in HP; apply Permutation_nil in HP; discriminate|].
    inversion Hl as [|? ? Hl' Fl]; subst. inversion Hm as [|? ? Hm' Fm]; subst.
    assert (a = b).
    { rewrite Forall_forall in *. apply Nat.le_antisymm.
      - destruct (Permutation_in b (Permutation_sym HP) (or_introl eq_refl)) as [->|H]; [lia|]. apply Fl; auto.
      - destruct (Permutation_in a HP (or_introl eq_refl)) as [->|H]; [lia|]. apply Fm; auto. }
    subst b. f_equal. apply IH; auto. apply Permutation_cons_inv in HP. exact HP.
Qed.
Lemma seq_sorted n i : StronglySorted le (seq i n).
Proof.
  revert i; induction n as [|n IH]; intros i; simpl; constructor; auto. apply Forall_forall. intros k Hk. apply in_seq in Hk. lia.
Qed.
(* argsort of a permutation of 0..n-1 is its inverse *)
Lemma argsort_inverse p : Permutation p (seq 0 (length p)) ->
  forall j k, nth_error (argsort Nat.ltb p) j = Some k -> nth_error p k = Some j.
Proof.
  intros HP j k H. apply argsort_pairs in H as (x & H1 & H2).
  assert (HM : map fst (PyList.sort (fun a b : nat * nat => Nat.ltb (fst a) (fst b)) (combine p (seq 0 (length p)))) = seq 0 (length p)).
  { apply sorted_perm_unique.
    - apply sorted_map_fst, sort_sorted_nat.
    - apply seq_sorted.
    - etransitivity; [apply Permutation_map, sort_perm|]. rewrite map_fst_combine by (rewrite seq_length; auto). exact HP. }
  assert (nth_error (seq 0 (length p)) j = Some x).
  { rewrite <- HM, nth_error_map, H1. reflexivity. }
  assert (Hj : (j < length p)%nat). { rewrite <- (seq_length (length p) 0). apply nth_error_Some. congruence. }
  assert (x = j).
  { rewrite (nth_error_nth' _ 0%nat) in H by (rewrite seq_length; exact Hj). inversion H. rewrite seq_nth by auto. reflexivity. }
  congruence.
Qed.

Lemma ranks_length fs : length (ranks fs) = length fs.
Proof. unfold ranks. rewrite map_length, !argsort_length. reflexivity. Qed.
Lemma ranks_perm fs : Permutation (ranks fs) (seq 1 (length fs)).
Proof.
  unfold ranks. rewrite <- seq_shift. apply Permutation_map. etransitivity; [apply argsort_perm|]. rewrite argsort_length. reflexivity.
Qed.
Lemma ranks_order fs : Forall (fun f => is_nan f = false) fs ->
  forall i j x y ri rj, nth_error fs i = Some x -> nth_error fs j = Some y ->
    nth_error (ranks fs) i = Some ri -> nth_error (ranks fs) j = Some rj -> nlt x y = true -> (ri < rj)%nat.
Proof.
  intros HN i j x y ri rj Hx Hy Hi Hj Hlt. unfold ranks in Hi, Hj. rewrite nth_error_map in Hi, Hj.
  set (p := argsort nlt fs) in *.
  destruct (nth_error (argsort Nat.ltb p) i) as [qi|] eqn:Ei; [|discriminate].
  destruct (nth_error (argsort Nat.ltb p) j) as [qj|] eqn:Ej; [|discriminate].
  cbn in Hi, Hj. inversion Hi; inversion Hj; subst ri rj.
  assert (HP : Permutation p (seq 0 (length p))).
  { unfold p. rewrite argsort_length. apply argsort_perm. }
  apply (argsort_inverse p HP) in Ei. apply (argsort_inverse p HP) in Ej.
  destruct (Nat.lt_total qi qj) as [H|[H|H]]; [lia| |].
  - subst qj. assert (i = j) by congruence. subst j. assert (x = y) by congruence. subst y. rewrite nlt_irrefl in Hlt. discriminate.
  - pose proof (argsort_sorted fs HN qj qi j i y x H Ej Ei Hy Hx) as HC.
    pose proof (nlt_nle_trans _ _ _ Hlt HC) as HX. rewrite nlt_irrefl in HX. discriminate.
Qed.

(* ----- weights ----- *)
Lemma qsum_map_div l t : qsum (map (fun r => r / t) l) == qsum l / t.
Proof.
  induction l as [|a l IH]; simpl; [unfold Qdiv; ring|]. rewrite IH. unfold Qdiv. ring.
Qed.
Lemma qsum_perm l m : Permutation l m -> qsum l == qsum m.
Proof. induction 1; simpl; lra. Qed.
Lemma qofnat_pos k : (0 < k)%nat -> 0 < qofnat k.
Proof. intros H. unfold qofnat. change 0 with (inject_Z 0). rewrite <- Zlt_Qlt. lia. Qed.
Lemma qofnat_lt a b : (a < b)%nat -> qofnat a < qofnat b.
Proof. intros H. unfold qofnat. rewrite <- Zlt_Qlt. lia. Qed.
Lemma qsum_pos l : l <> [] -> Forall (fun x => 0 < x) l -> 0 < qsum l.
Proof.
  intros HN HF. destruct l as [|a l]; [congruence|]. clear HN. revert a HF. induction l as [|b l IH]; intros a HF; inversion HF; subst.
  - simpl. lra.
  - specialize (IH b H2). simpl in *. lra.
Qed.
Lemma rank_sum_pos fs : fs <> [] -> 0 < qsum (map qofnat (ranks fs)).
Proof.
  intros H. apply qsum_pos.
  - intros HE. apply map_eq_nil in HE. pose proof (ranks_length fs) as HL. rewrite HE in HL. destruct fs; [congruence|discriminate].
  - apply Forall_forall. intros q Hq. apply in_map_iff in Hq as (k & <- & Hk). apply qofnat_pos.
    apply (Permutation_in _ (ranks_perm fs)) in Hk. apply in_seq in Hk. lia.
Qed.
Lemma rank_weights_ok fs : fs <> [] -> length (rank_weights fs) = length fs /\ Forall (fun w => 0 < w) (rank_weights fs) /\
  qsum (rank_weights fs) == 1.
Proof.
  intros H. pose proof (rank_sum_pos fs H) as HP. unfold rank_weights. split; [|split].
  - rewrite !map_length. apply ranks_length.
  - apply Forall_forall. intros w Hw. apply in_map_iff in Hw as (q & <- & Hq). apply in_map_iff in Hq as (k & <- & Hk).
    apply (Permutation_in _ (ranks_perm fs)) in Hk. apply in_seq in Hk. apply Qlt_shift_div_l; [exact HP|].
    rewrite Qmult_0_l. apply qofnat_pos. lia.
  - rewrite qsum_map_div. field. intros H0. rewrite H0 in HP. lra.
Qed.
Lemma rank_weights_order fs : Forall (fun f => is_nan f = false) fs ->
  forall i j x y wi wj, nth_error fs i = Some x -> nth_error fs j = Some y ->
    nth_error (rank_weights fs) i = Some wi -> nth_error (rank_weights fs) j = Some wj -> nlt x y = true -> wi < wj.
Proof.
  intros HN i j x y wi wj Hx Hy Hi Hj Hlt. unfold rank_weights in *. rewrite !nth_error_map in Hi, Hj.
  destruct (nth_error (ranks fs) i) as [ri|] eqn:Ei; [|discriminate]. destruct (nth_error (ranks fs) j) as [rj|] eqn:Ej; [|discriminate].
  cbn in Hi, Hj. inversion Hi; inversion Hj; subst wi wj.
  pose proof (ranks_order fs HN i j x y ri rj Hx Hy Ei Ej Hlt) as HR.
  assert (HP : 0 < qsum (map qofnat (ranks fs))) by (apply rank_sum_pos; destruct fs; [destruct i; discriminate|congruence]).
  apply Qlt_shift_div_l; [exact HP|]. unfold Qdiv.
  assert (HE : qofnat ri * / qsum (map qofnat (ranks fs)) * qsum (map qofnat (ranks fs)) == qofnat ri).
  { field. intros H0. rewrite H0 in HP. lra. }
  rewrite HE. apply qofnat_lt; exact HR.
Qed.

(* ----- weighted draws ----- *)
Lemma search_cdf_picks w acc u i : Forall (fun p => 0 <= p) w -> acc <= u -> u < acc + qsum w ->
  exists j, search_cdf w acc u i = (i + j)%nat /\ (j < length w)%nat /\
    acc + qsum (firstn j w) <= u < acc + qsum (firstn (S j) w).
Proof.
  revert acc i; induction w as [|p w IH]; intros acc i HF H1 H2; [simpl in H2; lra|].
  change (qsum (p :: w)) with (p + qsum w) in H2. cbn [search_cdf length].
  inversion HF; subst. destruct (qlt_spec u (acc + p)) as [H|H].
  - exists 0%nat. simpl. split; [lia|]. split; [lia|]. split; lra.
  - destruct (IH (acc + p) (S i)) as (j & E1 & E2 & E3); auto; try lra.
    exists (S j). split; [lia|]. split; [lia|].
    change (qsum (firstn (S j) (p :: w))) with (p + qsum (firstn j w)).
    change (qsum (firstn (S (S j)) (p :: w))) with (p + qsum (firstn (S j) w)). split; lra.
Qed.
Lemma choices_p_picks {A} (l : list A) k w g r g' : choices_p l k w g = (Ok r, g') ->
  Forall2 (fun u x => exists i, picks w u i /\ nth_error l i = Some x) (fst (randoms k g)) r.
Proof.
  intros H. pose proof (choices_p_ok l k w g r g' H) as (_ & HL & HF & HS & _). revert H.
  unfold choices_p. destruct (_ || _); [discriminate|]. destruct l as [|x0 l]; [discriminate|].
  unfold randoms. destruct (draws k g) as [qs g1]. intros H; inversion H; subst. cbn [fst].
  clear H. induction qs as [|q qs IH]; cbn [map]; constructor; auto.
  pose proof (u01_range q). destruct (search_cdf_picks w 0 (u01 q) 0 HF) as (j & E1 & E2 & E3); try lra.
  exists j. split; [split; [exact E2|lra]|]. rewrite E1. change (0 + j)%nat with j.
  change (nth_error (x0 :: l) j = Some (nth j (x0 :: l) x0)). apply nth_error_nth'. rewrite <- HL. exact E2.
Qed.
Lemma choices_p_total {A} (l : list A) k w g : length w = length l -> Forall (fun p => 0 <= p) w -> qsum w == 1 -> l <> [] ->
  exists r g', choices_p l k w g = (Ok r, g').
Proof.
  intros HL HF HS HN. unfold choices_p. rewrite HL, Nat.eqb_refl. unfold weights_ok.
  assert (forallb (qle 0) w = true) as ->. { apply forallb_forall. intros p Hp. rewrite Forall_forall in HF. apply qle_iff; auto. }
  assert (qeq (qsum w) 1 = true) as -> by (apply qeq_iff; exact HS). cbn [andb negb orb].
  destruct l; [congruence|]. destruct (draws k g). eauto.
Qed.
