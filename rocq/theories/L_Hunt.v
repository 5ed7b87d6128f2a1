(* The moves of the grey wolves, bit by bit (C72). *)
From Coq Require Import Lia Permutation.
From Verif Require Import PyNum PyList PyMon PyRng PyStat L_Num L_List L_Rng M_Matching M_Rule M_Mixing M_Solution S_Solution
  L_Heap L_HeapProps M_Composition S_Composition L_Safe L_SafeFit L_Composition M_GenomeOps S_GenomeOps L_GenomeOps L_GenomeProps L_GA L_Held M_Aco S_Aco L_AcoProps M_Abc M_Swarm S_Swarm L_Swarm
  L_SwarmProps L_Quantum S_Moves L_Moves.
From Coq Require Import Lqa.

Implicit Types s : hst plain.
Definition draws_only {A B} (f : A -> HSt plain B) (d : nat) (R : rng -> A -> B -> Prop) (l : A) : Prop :=
  forall s, exists x, f l s = (Ok x, with_r s (later d (hrng s))) /\ R (hrng s) l x.
Lemma with_r_same s : with_r s (hrng s) = s. Proof. destruct s; reflexivity. Qed.
Lemma mmap_draws {A B} (f : A -> HSt plain B) d R : forall ls s, Forall (draws_only f d R) ls ->
  exists xs, mmap f ls s = (Ok xs, with_r s (later (d * length ls) (hrng s))) /\ length xs = length ls /\
    forall j l, nth_error ls j = Some l -> exists x, nth_error xs j = Some x /\ R (later (d * j) (hrng s)) l x.
Proof.
  induction ls as [|l ls IH]; intros s HF.
  - exists []. cbn [mmap length]. rewrite Nat.mul_0_r, later_0, with_r_same. split; [reflexivity|]. split; [reflexivity|]. intros [|j] l H; discriminate H.
  - apply Forall_cons_iff in HF as [HF1 HF]. destruct (HF1 s) as (x & E & HR). destruct (IH (with_r s (later d (hrng s))) HF) as (xs & E2 & L2 & H2).
    exists (x :: xs). cbn [mmap]. rewrite (bind_ok _ _ _ _ _ E), (bind_ok _ _ _ _ _ E2). cbn [with_r hrng length] in *. rewrite later_later. split; [|split; [lia|]].
    + unfold ret, with_r. cbn [garr sols hrng]. replace (d * S (length ls))%nat with (d + d * length ls)%nat by lia. reflexivity.
    + intros [|j] l' Hj; cbn [nth_error] in *.
      * injection Hj as <-. exists x. split; [reflexivity|]. rewrite Nat.mul_0_r, later_0. exact HR.
      * destruct (H2 j l' Hj) as (x' & G1 & G2). exists x'. split; [exact G1|]. rewrite later_later in G2. replace (d * S j)%nat with (d + d * j)%nat by lia. exact G2.
Qed.
Lemma some_at {A} (l : list A) i : (i < length l)%nat -> exists x, nth_error l i = Some x.
Proof. intros H. apply nth_error_Some in H. destruct (nth_error l i); [eauto|congruence]. Qed.

Definition proposes M a n wolf (g : rng) (leader x : list bool) : Prop :=
  length x = n /\ forall i l w, nth_error leader i = Some l -> nth_error wolf i = Some w -> exists bit, nth_error x i = Some bit /\ proposal M a n g i l w bit.
Lemma binary_X_draws M a n leader wolf : length leader = n -> length wolf = n ->
  draws_only (fun l => binary_X M a l wolf) (4 * n) (proposes M a n wolf) leader.
Proof.
  intros LL LW s. unfold binary_X. rewrite LL. cbv zeta.
  rewrite (bind_ok _ _ _ _ _ (draw_list n s)), (bind_ok _ _ _ _ _ (draw_list n _)). cbn [with_r hrng]. rewrite later_later.
  set (g := hrng s). set (cs := map2 (fun x y => Fin (x * y)) _ _).
  assert (LA : length (wolf_A a (fst (randoms n g))) = n) by (unfold wolf_A; rewrite map_length; apply randoms_length).
  assert (LD : length (wolf_D leader wolf (fst (randoms n (later n g)))) = n) by (unfold wolf_D; apply map2_len; [apply randoms_length|rewrite combine_length; lia]).
  assert (Lc : length cs = n) by (unfold cs; apply map2_len; auto).
  rewrite (bind_ok _ _ _ _ _ (bin_eq M cs _)). cbn [with_r hrng]. rewrite Lc, later_later.
  match goal with |- context[rnd1 (randoms n)] => rewrite (bind_ok _ _ _ _ _ (draw_list n _)) end. cbn [with_r hrng]. rewrite later_later.
  eexists. split; [unfold ret, with_r; cbn [garr sols hrng]; replace (4 * n)%nat with (n + n + n + n)%nat by lia; reflexivity|]. split.
  - apply map2_len; auto. apply map2_len; [apply randoms_length|]. apply map2_len; [apply randoms_length|auto].
  - intros i l w Hl Hw. assert (Hi : (i < n)%nat) by (rewrite <- LL; apply nth_error_Some; congruence).
    pose proof (proj2 (randoms_later n g) i Hi) as U1. pose proof (proj2 (randoms_later n (later n g)) i Hi) as U2. pose proof (proj2 (randoms_later n (later (n + n) g)) i Hi) as U3.
    pose proof (proj2 (randoms_later n (later (n + n + n) g)) i Hi) as U4. rewrite number_later in U2, U3, U4.
    assert (HA : nth_error (wolf_A a (fst (randoms n g))) i = Some (drift a (number g i))) by (unfold wolf_A; rewrite nth_error_map, U1; reflexivity).
    assert (HD : nth_error (wolf_D leader wolf (fst (randoms n (later n g)))) i = Some (away (number g (n + i)) (one_or_zero l) (one_or_zero w))).
    { unfold wolf_D. rewrite (map2_nth _ _ _ _ _ _ U2 (combine_nth2 _ _ _ _ _ Hl Hw)). reflexivity. }
    pose proof (map2_nth (fun x y => Fin (x * y)) _ _ _ _ _ HA HD) as HC. fold cs in HC.
    eexists. split; [apply (map2_nth _ _ _ _ _ _ Hl (map2_nth _ _ _ _ _ _ U4 (map2_nth _ _ _ _ _ _ U3 HC)))|].
    eexists. split; [reflexivity|]. pose proof (number_range g (n + n + n + i)) as HR.
    set (drawn := nle _ _). rewrite qle_iff. destruct l; cbn [bitq].
    + split; auto. intros _. destruct (qle _ _); cbn [bitq]; lra.
    + destruct drawn; cbn [bitq].
      * split; auto. intros _. destruct (qle (number g (n + n + n + i)) 1) eqn:EQ; cbn [bitq]; [lra|]. apply qle_false in EQ. lra.
      * destruct (qle (number g (n + n + n + i)) 0) eqn:EQ; cbn [bitq]; split; intros H; try lra.
        { right. right. apply qle_iff in EQ. lra. }
        { apply qle_false in EQ. destruct H as [H|[H|H]]; [discriminate|discriminate|lra]. }
Qed.
Lemma crossover_draws M a leaders wolf s bits s' : Forall (fun l => length l = length wolf) leaders -> wolf_crossover M a leaders wolf s = (Ok bits, s') ->
  s' = with_r s (later (4 * length wolf * length leaders + length wolf) (hrng s)) /\ crossed M a leaders wolf (hrng s) bits.
Proof.
  intros HL H. unfold wolf_crossover in H.
  destruct (mmap_draws (fun l => binary_X M a l wolf) (4 * length wolf) (proposes M a (length wolf) wolf) leaders s) as (xs & E & Lx & HX).
  { revert HL. apply Forall_impl. intros l Hl. apply binary_X_draws; auto. }
  rewrite (bind_ok _ _ _ _ _ E) in H. destruct (_ || _) eqn:EB in H; [discriminate|]. apply Bool.orb_false_elim in EB as [E0 _]. apply Nat.eqb_neq in E0.
  rewrite (bind_ok _ _ _ _ _ (draw_tape (length wolf) _)) in H. cbn [with_r hrng] in H. rewrite later_later in H. injection H as <- <-.
  split; [reflexivity|]. set (n := length wolf) in *. set (g := hrng s) in *. set (g1 := later (4 * n * length leaders) g).
  split; [rewrite mapi_length; apply draws_length|].
  intros i w Hw. assert (Hi : (i < n)%nat) by (apply nth_error_Some; congruence). pose proof (proj2 (draws_later n g1) i Hi) as HQ.
  set (q := tape g1 (pos g1 + i)) in *. set (j := index_of (length leaders) q).
  assert (Hj : (j < length leaders)%nat) by (apply index_of_lt; lia). destruct (some_at leaders j Hj) as (leader & HLd).
  rewrite Forall_forall in HL. pose proof (HL leader (nth_error_In _ _ HLd)) as HLL. destruct (some_at leader i) as (l & Hl); [rewrite HLL; exact Hi|].
  destruct (HX j leader HLd) as (x & Hx & HP). destruct (proj2 HP i l w Hl Hw) as (bit & Hbit & HPr).
  exists j, leader, l, bit. split; [unfold j, q, g1; cbn [later tape pos]; rewrite Nat.add_assoc; reflexivity|]. split; [exact HLd|]. split; [exact Hl|]. split; [|exact HPr].
  change (n + (n + (n + (n + 0))))%nat with (4 * n)%nat. fold g1. rewrite mapi_nth, HQ. cbn [option_map]. fold j. rewrite (nth_error_nth _ _ _ Hx). f_equal. apply nth_error_nth. exact Hbit.
Qed.
Definition estimates a n wolf (g : rng) (leader : list bool) (x : list Q) : Prop :=
  length x = n /\ forall i l w, nth_error leader i = Some l -> nth_error wolf i = Some w -> nth_error x i = Some (estimate a n g i l w).
Lemma wolf_X_draws a n leader wolf : length leader = n -> length wolf = n ->
  draws_only (fun l => wolf_X a l wolf) (2 * n) (estimates a n wolf) leader.
Proof.
  intros LL LW s. unfold wolf_X. rewrite LL. cbv zeta.
  rewrite (bind_ok _ _ _ _ _ (draw_list n s)), (bind_ok _ _ _ _ _ (draw_list n _)). cbn [with_r hrng]. rewrite later_later. set (g := hrng s).
  eexists. split; [unfold ret, with_r; cbn [garr sols hrng]; replace (2 * n)%nat with (n + n)%nat by lia; reflexivity|]. split.
  - apply map2_len; auto. rewrite combine_length. unfold wolf_A. rewrite map_length, randoms_length. unfold wolf_D. rewrite (map2_len _ _ _ n); [lia|apply randoms_length|rewrite combine_length; lia].
  - intros i l w Hl Hw. assert (Hi : (i < n)%nat) by (rewrite <- LL; apply nth_error_Some; congruence).
    pose proof (proj2 (randoms_later n g) i Hi) as U1. pose proof (proj2 (randoms_later n (later n g)) i Hi) as U2. rewrite number_later in U2.
    assert (HA : nth_error (wolf_A a (fst (randoms n g))) i = Some (drift a (number g i))) by (unfold wolf_A; rewrite nth_error_map, U1; reflexivity).
    assert (HD : nth_error (wolf_D leader wolf (fst (randoms n (later n g)))) i = Some (away (number g (n + i)) (one_or_zero l) (one_or_zero w))).
    { unfold wolf_D. rewrite (map2_nth _ _ _ _ _ _ U2 (combine_nth2 _ _ _ _ _ Hl Hw)). reflexivity. }
    rewrite (map2_nth _ _ _ _ _ _ Hl (combine_nth2 _ _ _ _ _ HA HD)). reflexivity.
Qed.
Lemma sigmoid_draws M a leaders wolf s bits s' : Forall (fun l => length l = length wolf) leaders -> wolf_sigmoid M a leaders wolf s = (Ok bits, s') ->
  s' = with_r s (later (2 * length wolf * length leaders + length wolf) (hrng s)) /\ averaged M a leaders wolf (hrng s) bits.
Proof.
  intros HL H. unfold wolf_sigmoid in H.
  destruct (mmap_draws (fun l => wolf_X a l wolf) (2 * length wolf) (estimates a (length wolf) wolf) leaders s) as (xs & E & Lx & HX).
  { revert HL. apply Forall_impl. intros l Hl. apply wolf_X_draws; auto. }
  rewrite (bind_ok _ _ _ _ _ E) in H. destruct (Nat.eqb (length xs) 0) eqn:E0; [discriminate|]. apply Nat.eqb_neq in E0.
  rewrite bin_eq in H. rewrite map_length, seq_length in H. cbn [with_r hrng] in H. rewrite later_later in H. injection H as <- <-.
  split; [reflexivity|]. set (n := length wolf) in *. set (g := hrng s) in *.
  split; [apply map2_len; [apply randoms_length|rewrite map_length, seq_length; reflexivity]|].
  intros i w Hw. assert (Hi : (i < n)%nat) by (apply nth_error_Some; congruence).
  pose proof (proj2 (randoms_later n (later (2 * n * length leaders) g)) i Hi) as U. rewrite number_later in U.
  assert (HN : nth_error (map (fun i => Fin (qsum (map (fun x => nth i x 0) xs) / qofnat (length xs))) (seq 0 n)) i = Some (Fin (qsum (map (fun x => nth i x 0) xs) / qofnat (length xs)))).
  { rewrite nth_error_map, (nth_error_nth' _ 0%nat) by (rewrite seq_length; auto). rewrite seq_nth by auto. reflexivity. }
  eexists _, _. split; [apply (map2_nth _ _ _ _ _ _ U HN)|]. split; [|reflexivity].
  rewrite Lx. assert (EL : map (fun x => nth i x 0) xs = mapi (fun j leader => estimate a n (later (2 * n * j) g) i (nth i leader false) w) leaders); [|rewrite EL; reflexivity].
  apply nth_error_ext. intros j. rewrite mapi_nth, nth_error_map. destruct (nth_error leaders j) as [leader|] eqn:EJ.
  - destruct (HX j leader EJ) as (x & Hx & HE). rewrite Hx. cbn [option_map]. f_equal. rewrite Forall_forall in HL. pose proof (HL leader (nth_error_In _ _ EJ)) as HLL.
    destruct (some_at leader i) as (l & Hl); [rewrite HLL; exact Hi|]. rewrite (nth_error_nth _ _ _ Hl). apply nth_error_nth. apply (proj2 HE); auto.
  - assert (HNx : nth_error xs j = None) by (apply nth_error_None; rewrite Lx; apply nth_error_None; exact EJ). rewrite HNx. reflexivity.
Qed.
