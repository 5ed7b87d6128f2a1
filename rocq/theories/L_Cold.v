(* Solution composition with other solutions on the heap. *)
From Coq Require Import Lia.
From Verif Require Import PyNum PyList PyMon PyRng PyStat L_Num L_List M_Matching M_Rule M_Mixing M_GenomeOps M_Solution M_Composition M_GA M_Saga M_Sas M_Abc M_Swarm L_Invariance S_Units L_Units L_UnitsDisc L_Tandem L_OrderComp S_Cold L_Ratio.

Lemma tan_forall {S S' A B} (P : S -> S' -> Prop) (R : A -> B -> Prop) m m' : (forall s s', P s s' -> match m s, m' s' with (Ok x, s1), (Ok y, s2) => P s1 s2 /\ R x y | (Raise e, s1), (Raise e', s2) => P s1 s2 /\ e = e' | _, _ => False end) -> tandem P R m m'.
Proof. exact (fun H => H). Qed.
Lemma update_app {A} (a b : list A) k x : update (a ++ b) (length a + k) x = a ++ update b k x.
Proof. induction a as [|y a IH]; cbn; [reflexivity|]. f_equal. exact IH. Qed.
Lemma Forall2_update {A B} (R : A -> B -> Prop) l l' x x' k : R x x' -> Forall2 R l l' -> Forall2 R (update l k x) (update l' k x').
Proof. intros Hx H. revert k. induction H as [|a b l l' Hab H IH]; intros [|k]; cbn; constructor; auto. Qed.
Lemma Forall2_nth {A B} (R : A -> B -> Prop) l l' k : Forall2 R l l' -> paired R (nth_error l k) (nth_error l' k).
Proof. intros H. revert k. induction H as [|a b l l' Hab H IH]; intros [|k]; cbn; auto. Qed.
Lemma Forall2_part {A B} (R : A -> B -> Prop) l l' k : Forall2 R l l' -> Forall2 R (firstn k l) (firstn k l').
Proof. intros H. revert k. induction H as [|a b l l' Hab H IH]; intros [|k]; cbn; constructor; auto. Qed.
Lemma Forall2_back {A B} (R : A -> B -> Prop) l l' : Forall2 R l l' -> Forall2 R (rev l) (rev l').
Proof. induction 1 as [|a b l l' Hab H IH]; cbn; [constructor|]. apply Forall2_app; [exact IH|]. apply Forall2_cons; [exact Hab|apply Forall2_nil]. Qed.
Lemma Forall2_flat {A B} (R : A -> B -> Prop) l l' : Forall2 (Forall2 R) l l' -> Forall2 R (concat l) (concat l').
Proof. induction 1; cbn; [constructor|]. apply Forall2_app; assumption. Qed.
Lemma pairs_related {A B} (R : A -> B -> Prop) l l' : Forall2 R l l' -> Forall2 (fun p p' => R (fst p) (fst p') /\ R (snd p) (snd p')) (pairs l) (pairs l').
Proof.
  intros H. assert (G : forall n l l', (length l < n)%nat -> Forall2 R l l' -> Forall2 (fun p p' => R (fst p) (fst p') /\ R (snd p) (snd p')) (pairs l) (pairs l')); [|apply (G (S (length l))); [lia|exact H]].
  clear l l' H. induction n as [|n IH]; intros l l' HL H; [lia|]. destruct H as [|a a' l l' Ha H]; cbn; [constructor|]. destruct H as [|b b' l l' Hb H]; cbn; [constructor|]. constructor; [split; assumption|]. apply IH; [cbn in HL; lia|exact H].
Qed.

Lemma update_part {A} (a b : list A) k x : (k < length a)%nat -> update (a ++ b) k x = update a k x ++ b.
Proof. revert k. induction a as [|y a IH]; intros [|k] H; cbn in *; try lia; [reflexivity|]. f_equal. apply IH. lia. Qed.
Lemma update_there {A} (a : list A) k x : (k < length a)%nat -> nth_error (update a k x) k = Some x.
Proof. revert k. induction a as [|y a IH]; intros [|k] H; cbn in *; try lia; [reflexivity|]. apply IH. lia. Qed.
Lemma update_else {A} (a : list A) k i x : i <> k -> nth_error (update a k x) i = nth_error a i.
Proof. revert k i. induction a as [|y a IH]; intros [|k] [|i] H; cbn; try reflexivity; [contradiction H; reflexivity|]. apply IH. intros ->. apply H. reflexivity. Qed.
Lemma update_long {A} (a : list A) k x : length (update a k x) = length a.
Proof. revert k. induction a as [|y a IH]; intros [|k]; cbn; auto. Qed.

(* how many arrays and solutions there are on both heaps before, and the old solutions and arrays that both runs use *)
Record world : Type := mkWorld { wn : nat; wn' : nat; wm : nat; wm' : nat; pins : list (nat * nat); apins : list (nat * nat) }.
Definition ref (w : world) (r r' : nat) : Prop := In (r, r') (pins w) \/ exists k, r = (wm w + k)%nat /\ r' = (wm' w + k)%nat.
Definition aref (w : world) (r r' : nat) : Prop := In (r, r') (apins w) \/ exists k, r = (wn w + k)%nat /\ r' = (wn' w + k)%nat.

Section Moved.
Variable K : skind.
Variable Wd : world.
Local Notation ref := (ref Wd).
Local Notation aref := (aref Wd).
Definition obj (o o' : sol K) : Prop := aref (gref o) (gref o') /\ satt o = satt o' /\ sext o = sext o'.
Definition pinned (S S' : list (sol K)) : Prop := one_one (pins Wd) /\ forall r r', In (r, r') (pins Wd) -> exists o o', nth_error S r = Some o /\ nth_error S' r' = Some o' /\ obj o o'.
Definition apinned (A A' : list (list bool)) : Prop := one_one (apins Wd) /\ forall r r', In (r, r') (apins Wd) -> exists b, nth_error A r = Some b /\ nth_error A' r' = Some b.
Inductive moved : hst K -> hst K -> Prop :=
| Moved A A' G S S' X X' q : length A = wn Wd -> length A' = wn' Wd -> length S = wm Wd -> length S' = wm' Wd -> apinned A A' -> pinned S S' -> Forall2 obj X X' -> moved (mkH (A ++ G) (S ++ X) q) (mkH (A' ++ G) (S' ++ X') q).
Local Notation T := (tandem moved).
Lemma within {A} (l : list A) k x : nth_error l k = Some x -> (k < length l)%nat.
Proof. intros H. apply nth_error_Some. rewrite H. discriminate. Qed.
Lemma mv_arr bits : T aref (alloc_arr bits) (alloc_arr bits).
Proof. intros s s' [A A' G S S' X X' q HA HA' HS HS' HN HP HX]. cbn. rewrite <- !app_assoc. split; [constructor; auto|]. right. exists (length G). rewrite !app_length, HA, HA'. auto. Qed.
Lemma mv_new_sol o o' : obj o o' -> T ref (alloc_sol o) (alloc_sol o').
Proof. intros Ho s s' [A A' G S S' X X' q HA HA' HS HS' HN HP HX]. cbn. rewrite <- !app_assoc. split; [constructor; auto; apply Forall2_app; auto|]. right. exists (length X). rewrite !app_length, HS, HS', (L_List.Forall2_len _ _ _ HX). auto. Qed.
Lemma mv_sol r r' : ref r r' -> T obj (get_sol r) (get_sol r').
Proof.
  intros [Hr|(k & -> & ->)] s s' [A A' G S S' X X' q HA HA' HS HS' HN HP HX]; unfold get_sol; cbn [sols].
  - destruct (proj2 HP _ _ Hr) as (o & o' & H1 & H2 & Ho). rewrite (nth_error_app1 _ _ (within _ _ _ H1)), (nth_error_app1 _ _ (within _ _ _ H2)), H1, H2. cbn. split; [constructor; auto|exact Ho].
  - rewrite !nth_error_app2 by lia. replace (wm Wd + k - length S)%nat with k by lia. replace (wm' Wd + k - length S')%nat with k by lia.
    pose proof (Forall2_nth _ _ _ k HX) as H. destruct (nth_error X k), (nth_error X' k); cbn in *; try contradiction; (split; [constructor; auto|auto]).
Qed.
Lemma mv_put_sol r r' o o' : ref r r' -> obj o o' -> T eq (put_sol r o) (put_sol r' o').
Proof.
  intros [Hr|(k & -> & ->)] Ho s s' [A A' G S S' X X' q HA HA' HS HS' HN HP HX]; unfold put_sol; cbn [sols garr hrng].
  - destruct (proj2 HP _ _ Hr) as (z & z' & H1 & H2 & _). rewrite (update_part _ _ _ _ (within _ _ _ H1)), (update_part _ _ _ _ (within _ _ _ H2)). split; [|reflexivity]. constructor; auto; try (rewrite update_long; assumption).
    destruct HP as [HI HP]. split; [exact HI|]. intros i i' Hi. destruct (Nat.eq_dec i r) as [->|Hn].
    + assert (i' = r') by (apply (HI _ _ _ _ Hi Hr); reflexivity). subst i'. exists o, o'. rewrite !update_there by (eapply within; eassumption). auto.
    + assert (Hn' : i' <> r') by (intros ->; apply Hn; apply (HI _ _ _ _ Hi Hr); reflexivity). rewrite !update_else by assumption. apply HP. exact Hi.
  - rewrite <- HS, <- HS', !update_app. split; [|reflexivity]. constructor; auto. apply Forall2_update; assumption.
Qed.
Lemma mv_get_arr r r' : aref r r' -> T eq (get_arr r) (get_arr r').
Proof.
  intros [Hr|(k & -> & ->)] s s' [A A' G S S' X X' q HA HA' HS HS' HN HP HX]; unfold get_arr; cbn [garr].
  - destruct (proj2 HN _ _ Hr) as (b & H1 & H2). rewrite (nth_error_app1 _ _ (within _ _ _ H1)), (nth_error_app1 _ _ (within _ _ _ H2)), H1, H2. cbn. split; [constructor; auto|reflexivity].
  - rewrite !nth_error_app2 by lia. replace (wn Wd + k - length A)%nat with k by lia. replace (wn' Wd + k - length A')%nat with k by lia.
    destruct (nth_error G k); cbn; (split; [constructor; auto|reflexivity]).
Qed.
Lemma mv_put_arr r r' b : aref r r' -> T eq (put_arr r b) (put_arr r' b).
Proof.
  intros [Hr|(k & -> & ->)] s s' [A A' G S S' X X' q HA HA' HS HS' HN HP HX]; unfold put_arr; cbn [garr sols hrng].
  - destruct (proj2 HN _ _ Hr) as (z & H1 & H2). rewrite (update_part _ _ _ _ (within _ _ _ H1)), (update_part _ _ _ _ (within _ _ _ H2)). split; [|reflexivity]. constructor; auto; try (rewrite update_long; assumption).
    destruct HN as [HI HN]. split; [exact HI|]. intros i i' Hi. destruct (Nat.eq_dec i r) as [->|Hn].
    + assert (i' = r') by (apply (HI _ _ _ _ Hi Hr); reflexivity). subst i'. exists b. rewrite !update_there by (eapply within; eassumption). auto.
    + assert (Hn' : i' <> r') by (intros ->; apply Hn; apply (HI _ _ _ _ Hi Hr); reflexivity). rewrite !update_else by assumption. apply HN. exact Hi.
  - rewrite <- HA, <- HA', !update_app. split; [|reflexivity]. constructor; auto.
Qed.
Lemma mv_rnd {B C} (R : B -> C -> Prop) (f : St rng B) (f' : St rng C) : alike R f f' -> T R (rnd f) (rnd f').
Proof. intros H s s' [A A' G S S' X X' q HA HA' HS HS' HN HP HX]. unfold rnd. cbn [hrng garr sols]. specialize (H q). destruct (f q) as [[x|e] q1], (f' q) as [[x'|e'] q2]; try contradiction; destruct H as [<- H]; (split; [constructor; auto|exact H]). Qed.
Lemma mv_rnd0 {B} (f : St rng B) : T eq (rnd f) (rnd f).
Proof. apply mv_rnd. intros q. destruct (f q) as [[x|e] q1]; auto. Qed.
Lemma mv_rnd1 {B} (f : rng -> B * rng) : T eq (rnd1 f) (rnd1 f).
Proof. apply mv_rnd0. Qed.
Lemma mv_set_rng q : T eq (set_rng q) (set_rng q).
Proof. intros s s' [A A' G S S' X X' q0 HA HA' HS HS' HN HP HX]. cbn. split; [constructor; auto|reflexivity]. Qed.
Hint Resolve mv_arr mv_new_sol mv_sol mv_put_sol mv_get_arr mv_put_arr mv_rnd0 mv_rnd1 mv_set_rng tan_raise tan_value : mv.
Lemma mv_genome r r' : ref r r' -> T eq (genome r) (genome r').
Proof. intros H. unfold genome. eapply tan_bind; [apply mv_sol; exact H|]. intros o o' (Ha & _). apply mv_get_arr. exact Ha. Qed.
Lemma mv_set_genome r r' b : ref r r' -> T eq (set_genome r b) (set_genome r' b).
Proof. intros H. unfold set_genome. eapply tan_bind; [apply mv_sol; exact H|]. intros o o' (Ha & E1 & E2). eapply tan_bind; [apply mv_arr|]. intros a a' Hb. apply mv_put_sol; [exact H|]. split; [exact Hb|cbn; auto]. Qed.
Lemma mv_write r r' f : ref r r' -> T eq (write_genome r f) (write_genome r' f).
Proof. intros H. unfold write_genome. eapply tan_bind; [apply mv_sol; exact H|]. intros o o' (Ha & _). eapply tan_bind; [apply mv_get_arr; exact Ha|]. intros b b' <-. apply mv_put_arr. exact Ha. Qed.
Lemma mv_satt r r' : ref r r' -> T eq (get_satt r) (get_satt r').
Proof. intros H. unfold get_satt. eapply tan_bind; [apply mv_sol; exact H|]. intros o o' (_ & <- & _). apply tan_value. Qed.
Lemma mv_fitness r r' : ref r r' -> T eq (fitness r) (fitness r').
Proof. intros H. unfold fitness. eapply tan_bind; [apply mv_satt; exact H|]. intros a a' <-. apply tan_ret. reflexivity. Qed.
Lemma mv_ext r r' : ref r r' -> T eq (get_ext r) (get_ext r').
Proof. intros H. unfold get_ext. eapply tan_bind; [apply mv_sol; exact H|]. intros o o' (_ & _ & E). apply tan_ret. exact E. Qed.
Lemma mv_set_ext r r' x : ref r r' -> T eq (set_ext r x) (set_ext r' x).
Proof. intros H. unfold set_ext. eapply tan_bind; [apply mv_sol; exact H|]. intros o o' (Ha & E1 & E2). apply mv_put_sol; [exact H|]. split; [exact Ha|cbn; auto]. Qed.
Lemma mv_new b : T ref (new_sol b) (new_sol b).
Proof. unfold new_sol. eapply tan_bind; [apply mv_arr|]. intros a a' Ha. apply mv_new_sol. split; [exact Ha|cbn; auto]. Qed.
Lemma mv_clone r r' : ref r r' -> T ref (clone r) (clone r').
Proof.
  intros H. unfold clone. eapply tan_bind; [apply mv_genome; exact H|]. intros b b' <-. eapply tan_bind; [apply mv_arr|]. intros a a' Ha. eapply tan_bind; [apply mv_satt; exact H|]. intros t t' <-. eapply tan_bind; [apply mv_ext; exact H|]. intros x x' <-. apply mv_new_sol. split; [exact Ha|cbn; auto].
Qed.
Lemma mv_clone_with r r' b : ref r r' -> T ref (clone_with r b) (clone_with r' b).
Proof. intros H. unfold clone_with. eapply tan_bind; [apply mv_ext; exact H|]. intros x x' <-. eapply tan_bind; [apply mv_arr|]. intros a a' Ha. apply mv_new_sol. split; [exact Ha|cbn; auto]. Qed.
Lemma mv_keyed rs rs' : Forall2 ref rs rs' -> T (Forall2 (fun p p' => fst p = fst p' /\ ref (snd p) (snd p'))) (keyed rs) (keyed rs').
Proof. intros H. unfold keyed. apply (tan_mmap _ ref); [|exact H]. intros r r' Hr. eapply tan_bind; [apply mv_fitness; exact Hr|]. intros f f' <-. apply tan_ret. auto. Qed.
Lemma mv_fittest rs rs' : Forall2 ref rs rs' -> T ref (fittest rs) (fittest rs').
Proof.
  intros H. unfold fittest. eapply tan_bind; [apply mv_keyed; exact H|]. intros ks ks' HK. eapply tan_bind.
  - apply tan_lift, both_res. apply (pymax_related (fun p p' => fst p = fst p' /\ ref (snd p) (snd p'))); [|exact HK]. intros a b a' b' [E1 _] [E2 _]. unfold key_lt. rewrite E1, E2. reflexivity.
  - intros p p' [_ E]. apply tan_ret. exact E.
Qed.
Lemma snds_ref (ks ks' : list (num * nat)) : Forall2 (fun p p' => fst p = fst p' /\ ref (snd p) (snd p')) ks ks' -> Forall2 ref (map snd ks) (map snd ks').
Proof. induction 1 as [|p p' ks ks' [_ H] HK IH]; cbn; constructor; auto. Qed.
Lemma mv_ranked rs rs' : Forall2 ref rs rs' -> T (Forall2 ref) (by_fitness_desc rs) (by_fitness_desc rs').
Proof.
  intros H. unfold by_fitness_desc. eapply tan_bind; [apply mv_keyed; exact H|]. intros ks ks' HK. apply tan_ret. apply snds_ref. unfold sort_desc. apply sort_same; [|exact HK]. intros a b a' b' [E1 _] [E2 _]. unfold key_lt. rewrite E1, E2. reflexivity.
Qed.
Lemma mv_fitnesses rs rs' : Forall2 ref rs rs' -> T eq (fitnesses rs) (fitnesses rs').
Proof. intros H. unfold fitnesses. apply (tan_weak _ (Forall2 eq)); [apply L_Units.eq_Forall2|]. apply (tan_mmap _ ref); [apply mv_fitness|exact H]. Qed.
Lemma mv_times {A B} (R : A -> B -> Prop) k (f : HSt K A) (f' : HSt K B) : T R f f' -> T (Forall2 R) (times k f) (times k f').
Proof. intros H. induction k as [|k IH]; cbn [times]; [apply tan_ret; constructor|]. eapply tan_bind; [exact H|]. intros z z' Hz. eapply tan_bind; [exact IH|]. intros zs zs' HZ. apply tan_ret. constructor; assumption. Qed.
Lemma mv_iterate {A} (R : A -> A -> Prop) k (f f' : A -> HSt K A) x x' : (forall x x', R x x' -> T R (f x) (f' x')) -> R x x' -> T R (iterate k f x) (iterate k f' x').
Proof. intros H. revert x x'. induction k as [|k IH]; intros x x' Hx; cbn [iterate]; [apply tan_ret; exact Hx|]. eapply tan_bind; [apply H; exact Hx|]. intros z z' Hz. apply IH. exact Hz. Qed.
Lemma mv_miter {A B} (R : A -> B -> Prop) (f : A -> HSt K unit) (f' : B -> HSt K unit) l l' : (forall x x', R x x' -> T eq (f x) (f' x')) -> Forall2 R l l' -> T eq (miter f l) (miter f' l').
Proof. intros H. induction 1 as [|x x' l l' Hx HL IH]; cbn [miter]; [apply tan_ret; reflexivity|]. eapply tan_bind; [apply H; exact Hx|]. intros _ _ _. exact IH. Qed.
Lemma same_all w : Forall2 S_Invariance.same_num w w.
Proof. induction w as [|x w IH]; constructor; [destruct x; cbn; reflexivity|exact IH]. Qed.
Lemma mv_select k pop pop' size : Forall2 ref pop pop' -> T (Forall2 ref) (select k pop size) (select k pop' size).
Proof.
  intros H. destruct k as [| | |k]; cbn [select].
  - apply mv_rnd, alike_choices. exact H.
  - eapply tan_bind; [apply mv_fitnesses; exact H|]. intros fs fs' <-. destruct (roulette_weights fs) as [w|]; apply mv_rnd; [apply choices_num_alike; [exact H|apply same_all]|apply alike_choices; exact H].
  - eapply tan_bind; [apply mv_fitnesses; exact H|]. intros fs fs' <-. apply mv_rnd, alike_choices_p. exact H.
  - apply (tan_mmap _ eq); [|apply Forall2_eq]. intros _ _ _. eapply tan_bind; [apply mv_rnd, alike_choices; exact H|]. intros d d' Hd. apply mv_fittest. exact Hd.
Qed.
Lemma mv_random_bits k p : T eq (random_bits k p) (random_bits (K := K) k p).
Proof. unfold random_bits. eapply tan_bind; [apply mv_rnd1|]. intros u u' <-. apply tan_ret. reflexivity. Qed.
Lemma mv_init i k : T ref (init_call i k) (init_call i k).
Proof. destruct i; cbn [init_call]; [apply mv_new|]. eapply tan_bind; [apply mv_random_bits|]. intros b b' <-. apply mv_new. Qed.
Lemma mv_single a a' b b' i : ref a a' -> ref b b' -> T ref (single_point a b i) (single_point a' b' i).
Proof. intros Ha Hb. unfold single_point. eapply tan_bind; [apply mv_genome; exact Ha|]. intros x x' <-. eapply tan_bind; [apply mv_genome; exact Hb|]. intros y y' <-. apply mv_clone_with. exact Ha. Qed.
Lemma mv_npoint both cuts : forall a a' b b', ref a a' -> ref b b' -> T ref (npoint both cuts a b) (npoint both cuts a' b').
Proof.
  induction cuts as [|i cuts IH]; intros a a' b b' Ha Hb; cbn [npoint]; [apply tan_ret; exact Ha|]. eapply tan_bind; [apply mv_single; assumption|]. intros x x' Hx. eapply (tan_bind _ ref); [|intros y y' Hy; apply IH; assumption].
  destruct both; [apply mv_single; assumption|apply tan_ret; exact Hb].
Qed.
Lemma mv_cross both x rate a a' b b' : ref a a' -> ref b b' -> T ref (crossover both x rate a b) (crossover both x rate a' b').
Proof.
  intros Ha Hb. unfold crossover. eapply tan_bind; [apply mv_rnd1|]. intros u u' <-. destruct (nlt (Fin u) rate); [|apply tan_ret; exact Ha]. destruct x; cbn [recombine].
  - eapply tan_bind; [apply mv_genome; exact Ha|]. intros y y' <-. eapply tan_bind; [apply mv_rnd0|]. intros c c' <-. apply mv_npoint; assumption.
  - eapply tan_bind; [apply mv_genome; exact Ha|]. intros y y' <-. eapply tan_bind; [apply mv_rnd1|]. intros v v' <-. eapply tan_bind; [apply mv_genome; exact Hb|]. intros w w' <-. destruct (Nat.eqb _ _); [apply mv_clone_with; exact Ha|apply tan_raise].
Qed.
Lemma mv_flips rate r r' : ref r r' -> T ref (bit_flips rate r) (bit_flips rate r').
Proof. intros H. unfold bit_flips. eapply tan_bind; [apply mv_genome; exact H|]. intros y y' <-. eapply tan_bind; [apply mv_rnd1|]. intros v v' <-. apply mv_clone_with. exact H. Qed.
Lemma mv_offspring (cross cross' : nat -> nat -> HSt K nat) ps ps' : (forall a a' b b', ref a a' -> ref b b' -> T ref (cross a b) (cross' a' b')) -> Forall2 ref ps ps' -> T (Forall2 ref) (offspring cross ps) (offspring cross' ps').
Proof.
  intros H HP. unfold offspring. eapply tan_bind; [|intros cs cs' HC; apply tan_ret, Forall2_flat; exact HC]. apply (tan_mmap _ (fun p p' => ref (fst p) (fst p') /\ ref (snd p) (snd p'))); [|apply pairs_related; exact HP].
  intros p p' [H1 H2]. eapply tan_bind; [apply H; assumption|]. intros c c' Hc. eapply tan_bind; [apply H; assumption|]. intros d d' Hd. apply tan_ret. repeat (apply Forall2_cons; [assumption|]); apply Forall2_nil.
Qed.
Section Task.
Variables (L : learner) (E : env L).
Lemma mv_fit r r' : ref r r' -> T ref (M_Solution.fit E r) (M_Solution.fit E r').
Proof.
  intros H. unfold M_Solution.fit. eapply tan_bind; [apply mv_genome; exact H|]. intros b b' <-. eapply tan_bind; [apply mv_rnd0|]. intros a a' <-. eapply tan_bind; [apply mv_sol; exact H|]. intros o o' (Ha & E1 & E2).
  eapply tan_bind; [apply mv_put_sol; [exact H|]; split; [exact Ha|cbn; auto]|]. intros _ _ _. apply tan_ret. exact H.
Qed.
Lemma mv_fit_all rs rs' : Forall2 ref rs rs' -> T (Forall2 ref) (fit_all E rs) (fit_all E rs').
Proof. intros H. apply (tan_mmap _ ref); [apply mv_fit|exact H]. Qed.
Definition runs_alike (O : optimizer K) (RI : ostate O -> ostate O -> Prop) : Prop := forall ini pop pop' i i', Forall2 ref pop pop' -> RI i i' -> T (fun z z' => Forall2 ref (fst z) (fst z') /\ RI (snd z) (snd z')) (orun O L E ini pop i) (orun O L E ini pop' i').
Definition comp_alike {O : optimizer K} (RI : ostate O -> ostate O -> Prop) (a a' : comp O) : Prop := Forall2 ref (cpop a) (cpop a') /\ Forall2 ref (carch a) (carch a') /\ RI (cint a) (cint a').
Lemma mv_pad k r r' : ref r r' -> T eq (pad_zero k r) (pad_zero k r').
Proof. intros H. unfold pad_zero. eapply tan_bind; [apply mv_genome; exact H|]. intros b b' <-. destruct (Nat.ltb k (length b)); [apply tan_raise|apply mv_set_genome; exact H]. Qed.
Lemma mv_init_pad i k r r' : ref r r' -> T ref (init_pad i k r) (init_pad i k r').
Proof.
  intros H. destruct i; cbn [init_pad]; [eapply tan_bind; [apply mv_pad; exact H|]; intros _ _ _; apply tan_ret; exact H|]. eapply tan_bind; [apply mv_genome; exact H|]. intros b b' <-. destruct (Nat.ltb k (length b)); [apply tan_raise|].
  eapply tan_bind; [apply mv_random_bits|]. intros v v' <-. eapply tan_bind; [apply mv_set_genome; exact H|]. intros _ _ _. apply tan_ret. exact H.
Qed.
Lemma mv_archive arch arch' pop pop' : Forall2 ref arch arch' -> Forall2 ref pop pop' -> T (Forall2 ref) (archive_call arch pop) (archive_call (K := K) arch' pop').
Proof.
  intros HA HP. unfold archive_call. eapply tan_bind; [apply mv_fittest; exact HP|]. intros b b' Hb. destruct HA as [|a a' l l' Ha HL].
  - eapply tan_bind; [apply mv_clone; exact Hb|]. intros c c' Hc. apply tan_ret. apply Forall2_cons; [exact Hc|apply Forall2_nil].
  - eapply tan_bind; [apply mv_fitness; exact Ha|]. intros f f' <-. eapply tan_bind; [apply mv_fitness; exact Hb|]. intros g g' <-. destruct (nlt f g); [|apply tan_ret; constructor; assumption].
    eapply tan_bind; [apply mv_clone; exact Hb|]. intros c c' Hc. apply tan_ret. apply Forall2_app; [exact HL|]. apply Forall2_cons; [exact Hc|apply Forall2_nil].
Qed.
Lemma mv_optimize (O : optimizer K) RI c q (st st' : comp O) : runs_alike O RI -> (forall i i', RI i i' -> osize O i = osize O i') -> cwarm c = false \/ Forall2 ref (cpop st) (cpop st') -> carchive c = false \/ Forall2 ref (carch st) (carch st') -> RI (cint st) (cint st') -> T (comp_alike RI) (optimize O c E q st) (optimize O c E q st').
Proof.
  intros HO HZ HW HA HI. unfold optimize. cbv zeta. rewrite <- (HZ _ _ HI). eapply tan_bind; [apply mv_set_rng|]. intros _ _ _. eapply (tan_bind _ (Forall2 ref)).
  { unfold init_population. destruct HW as [HW|HW]; [rewrite HW; cbn [negb orb]; apply mv_times, mv_init|]. destruct (cwarm c); cbn [negb orb]; [|apply mv_times, mv_init].
    destruct HW as [|x x' l l' Hx HL]; [apply mv_times, mv_init|]. apply (tan_mmap _ ref); [intros r r' Hr; apply mv_init_pad; exact Hr|constructor; assumption]. }
  intros pop pop' HP. assert (HC : carchive c = true -> Forall2 ref (carch st) (carch st')) by (destruct HA as [HA|HA]; [rewrite HA; discriminate|auto]). eapply (tan_bind _ eq).
  { destruct (carchive c); [|apply tan_ret; reflexivity]. specialize (HC eq_refl). eapply tan_bind; [apply (mv_miter ref); [|exact HC]; intros r r' Hr; apply mv_pad; exact Hr|]. intros _ _ _. eapply tan_bind; [apply mv_fit_all; exact HC|]. intros _ _ _. apply tan_ret. reflexivity. }
  intros _ _ _. eapply (tan_bind _ (fun z z' => Forall2 ref (fst z) (fst z') /\ RI (snd z) (snd z'))).
  { destruct (epool E); [|apply HO; assumption]. eapply tan_bind; [apply mv_init|]. intros r r' Hr. eapply tan_bind; [apply mv_fit; exact Hr|]. intros x x' Hx. apply tan_ret. cbn. auto. }
  intros [p i] [p' i'] [H1 H2]. cbn in H1, H2. eapply (tan_bind _ (Forall2 ref)).
  { destruct (carchive c); [|apply tan_ret; constructor]. specialize (HC eq_refl). eapply tan_bind; [apply mv_archive; [exact HC|exact H1]|]. intros a a' Ha. apply mv_fit_all. exact Ha. }
  intros a a' Ha. apply tan_ret. repeat split; auto.
Qed.
Lemma mv_elitist {O : optimizer K} RI (a a' : comp O) : comp_alike RI a a' -> T (paired ref) (elitist a) (elitist a').
Proof.
  intros (H & HA & _). unfold elitist. destruct H as [|x x' l l' Hx HL]; [apply tan_ret; exact I|]. eapply tan_bind; [apply mv_fittest; apply Forall2_app; [constructor; assumption|exact HA]|]. intros r r' Hr. apply tan_ret. exact Hr.
Qed.
End Task.
Lemma array_same A A' G r r' : length A = wn Wd -> length A' = wn' Wd -> apinned A A' -> aref r r' -> nth_error (A ++ G) r = nth_error (A' ++ G) r'.
Proof.
  intros HA HA' HN [Hr|(k & -> & ->)].
  - destruct (proj2 HN _ _ Hr) as (b & H1 & H2). rewrite (nth_error_app1 _ _ (within _ _ _ H1)), (nth_error_app1 _ _ (within _ _ _ H2)), H1, H2. reflexivity.
  - rewrite !nth_error_app2 by lia. f_equal. lia.
Qed.
Lemma sol_at s s' r r' : moved s s' -> ref r r' -> paired obj (nth_error (sols s) r) (nth_error (sols s') r').
Proof.
  intros [A A' G S S' X X' q HA HA' HS HS' HN HP HX] Hr. cbn [sols]. destruct Hr as [Hr|(k & -> & ->)].
  - destruct (proj2 HP _ _ Hr) as (o & o' & H1 & H2 & Ho). rewrite (nth_error_app1 _ _ (within _ _ _ H1)), (nth_error_app1 _ _ (within _ _ _ H2)), H1, H2. exact Ho.
  - rewrite !nth_error_app2 by lia. replace (wm Wd + k - length S)%nat with k by lia. replace (wm' Wd + k - length S')%nat with k by lia. apply Forall2_nth. exact HX.
Qed.
Lemma arr_at s s' r r' : moved s s' -> aref r r' -> nth_error (garr s) r = nth_error (garr s') r'.
Proof. intros [A A' G S S' X X' q HA HA' HS HS' HN HP HX] Hr. apply array_same; assumption. Qed.
Lemma view_same s s' r r' : moved s s' -> ref r r' -> view s r = view s' r'.
Proof.
  intros HM Hr. unfold view. pose proof (sol_at s s' r r' HM Hr) as H.
  destruct (nth_error (sols s) r) as [o|], (nth_error (sols s') r') as [o'|]; cbn in H; try contradiction; [|reflexivity]. destruct H as (Ha & <- & <-). rewrite (arr_at s s' _ _ HM Ha). reflexivity.
Qed.
Lemma ref_one s s' a a' b b' : moved s s' -> ref a a' -> ref b b' -> (a = b <-> a' = b').
Proof.
  intros [A A' G S S' X X' q HA HA' HS HS' HN [HI HP] HX] Ha Hb.
  assert (HR : forall r r', In (r, r') (pins Wd) -> (r < wm Wd)%nat /\ (r' < wm' Wd)%nat) by (intros r r' H; destruct (HP _ _ H) as (o & o' & H1 & H2 & _); apply within in H1; apply within in H2; lia).
  destruct Ha as [Ha|(k & -> & ->)], Hb as [Hb|(j & -> & ->)]; [apply (HI _ _ _ _ Ha Hb)|destruct (HR _ _ Ha); lia|destruct (HR _ _ Hb); lia|lia].
Qed.
Lemma aref_one s s' a a' b b' : moved s s' -> aref a a' -> aref b b' -> (a = b <-> a' = b').
Proof.
  intros [A A' G S S' X X' q HA HA' HS HS' [HI HN] HP HX] Ha Hb.
  assert (HR : forall r r', In (r, r') (apins Wd) -> (r < wn Wd)%nat /\ (r' < wn' Wd)%nat) by (intros r r' H; destruct (HN _ _ H) as (o & H1 & H2); apply within in H1; apply within in H2; lia).
  destruct Ha as [Ha|(k & -> & ->)], Hb as [Hb|(j & -> & ->)]; [apply (HI _ _ _ _ Ha Hb)|destruct (HR _ _ Ha); lia|destruct (HR _ _ Hb); lia|lia].
Qed.
Lemma paired_in {A B} (R : A -> B -> Prop) l l' : Forall2 R l l' -> forall x x', In (x, x') (combine l l') -> R x x' /\ In x l.
Proof. induction 1 as [|a b l l' Hab H IH]; intros x x' Hx; cbn in Hx; [contradiction|]. destruct Hx as [Hx|Hx]; [injection Hx as <- <-; split; [exact Hab|left; reflexivity]|]. destruct (IH _ _ Hx). split; [assumption|right; assumption]. Qed.
Lemma combine_all {A B} (R : A -> B -> Prop) l l' : Forall2 R l l' -> Forall2 (fun x x' => In (x, x') (combine l l')) l l'.
Proof.
  assert (G : forall P l l', Forall2 R l l' -> (forall z, In z (combine l l') -> In z P) -> Forall2 (fun x x' => In (x, x') P) l l'); [|intros H; apply (G _ _ _ H); auto].
  intros P k k' H. induction H as [|a b k k' Hab H IH]; intros HP; constructor; [apply HP; left; reflexivity|]. apply IH. intros z Hz. apply HP. right. exact Hz.
Qed.
Lemma picture_after t t' rs rs' : moved t t' -> Forall2 ref rs rs' -> Forall (fun r => view t r <> None) rs -> same_picture t t' rs rs'.
Proof.
  intros HM HF HV. set (P := combine rs rs'). set (Q := flat_map (fun z => match nth_error (sols t) (fst z), nth_error (sols t') (snd z) with Some o, Some o' => [(gref o, gref o')] | _, _ => [] end) P).
  assert (HQ : forall a a', In (a, a') Q -> exists r r' o o', In (r, r') P /\ nth_error (sols t) r = Some o /\ nth_error (sols t') r' = Some o' /\ a = gref o /\ a' = gref o').
  { intros a a' H. apply in_flat_map in H. destruct H as ([r r'] & H1 & H2). cbn [fst snd] in H2. destruct (nth_error (sols t) r) as [o|] eqn:E1, (nth_error (sols t') r') as [o'|] eqn:E2; cbn in H2; try contradiction. destruct H2 as [H2|[]]. injection H2 as <- <-. exists r, r', o, o'. auto. }
  assert (HO : forall r r', In (r, r') P -> exists o o' b, nth_error (sols t) r = Some o /\ nth_error (sols t') r' = Some o' /\ obj o o' /\ nth_error (garr t) (gref o) = Some b /\ nth_error (garr t') (gref o') = Some b).
  { intros r r' H. destruct (paired_in ref rs rs' HF r r' H) as [Hr Hin]. pose proof (sol_at t t' r r' HM Hr) as HS. rewrite Forall_forall in HV. specialize (HV r Hin). unfold view in HV.
    destruct (nth_error (sols t) r) as [o|]; [|contradiction HV; reflexivity]. destruct (nth_error (sols t') r') as [o'|]; [|contradiction]. destruct (nth_error (garr t) (gref o)) as [b|] eqn:Eb; [|contradiction HV; reflexivity].
    exists o, o', b. repeat split; auto; try apply HS. rewrite <- Eb. symmetry. apply arr_at; [exact HM|]. apply HS. }
  exists P, Q. split; [|split; [|split; [|split]]].
  - intros a a' b b' H1 H2. apply (ref_one t t'); [exact HM| |]; eapply paired_in; eassumption.
  - intros a a' b b' H1 H2. destruct (HQ _ _ H1) as (r & r' & o & o' & K1 & K2 & K3 & -> & ->). destruct (HQ _ _ H2) as (u & u' & v & v' & J1 & J2 & J3 & -> & ->).
    destruct (HO _ _ K1) as (z & z' & ? & Z1 & Z2 & Z3 & _). destruct (HO _ _ J1) as (y & y' & ? & Y1 & Y2 & Y3 & _). rewrite K2 in Z1. rewrite K3 in Z2. rewrite J2 in Y1. rewrite J3 in Y2. injection Z1 as <-. injection Z2 as <-. injection Y1 as <-. injection Y2 as <-.
    apply (aref_one t t'); [exact HM|apply Z3|apply Y3].
  - apply (combine_all ref). exact HF.
  - intros r r' H. destruct (HO r r' H) as (o & o' & b & H1 & H2 & (_ & H3 & H4) & _). exists o, o'. split; [exact H1|]. split; [exact H2|]. split; [|auto]. apply in_flat_map. exists (r, r'). split; [exact H|]. cbn [fst snd]. rewrite H1, H2. left. reflexivity.
  - intros a a' H. destruct (HQ _ _ H) as (r & r' & o & o' & K1 & K2 & K3 & -> & ->). destruct (HO _ _ K1) as (z & z' & b & Z1 & Z2 & _ & Z4 & Z5). rewrite K2 in Z1. rewrite K3 in Z2. injection Z1 as <-. injection Z2 as <-. exists b. auto.
Qed.
Lemma views_same s s' rs rs' : moved s s' -> Forall2 ref rs rs' -> map (view s) rs = map (view s') rs'.
Proof. intros H HF. induction HF as [|r r' rs rs' Hr HF IH]; cbn; [reflexivity|]. f_equal; [apply view_same; assumption|exact IH]. Qed.
Lemma moved_rng s s' : moved s s' -> hrng s = hrng s'.
Proof. intros []. reflexivity. Qed.
End Moved.
