(* Facts about PyList. *)
From Coq Require Export Permutation Sorted.
From Verif Require Import PyNum PyList L_Num.

(* ----- compress ----- *)
Lemma compress_In {A} (l : list A) g x : In x (compress l g) -> In x l.
Proof.
  revert g; induction l as [|a l IH]; intros [|b g]; simpl; try tauto.
  destruct b; simpl; intros H; [destruct H as [H|H]|]; eauto.
Qed.
Lemma compress_length {A} (l : list A) g : length g = length l -> length (compress l g) = count_true g.
Proof.
  revert g; induction l as [|a l IH]; intros [|b g] H; simpl in *; try lia.
  destruct b; simpl; rewrite IH; lia.
Qed.
Lemma compress_nil {A} g : compress (@nil A) g = [].
Proof. destruct g; reflexivity. Qed.
Lemma compress_app {A} (l1 l2 : list A) g1 g2 :
  length g1 = length l1 -> compress (l1 ++ l2) (g1 ++ g2) = compress l1 g1 ++ compress l2 g2.
Proof.
  revert g1; induction l1 as [|a l IH]; intros [|b g1] H; simpl in *; try lia; auto.
  destruct b; simpl; rewrite IH by lia; reflexivity.
Qed.
Lemma compress_zeros {A} (l : list A) n : compress l (repeat false n) = [].
Proof. revert n; induction l as [|a l IH]; intros [|n]; simpl; auto. Qed.
Lemma compress_ones {A} (l : list A) : compress l (repeat true (length l)) = l.
Proof. induction l as [|a l IH]; simpl; [|rewrite IH]; reflexivity. Qed.
Lemma compress_pad {A} (l1 l2 : list A) g :
  length g = length l1 -> compress (l1 ++ l2) (g ++ repeat false (length l2)) = compress l1 g.
Proof. intros H. rewrite compress_app by exact H. rewrite compress_zeros, app_nil_r. reflexivity. Qed.
Lemma compress_map {A B} (f : A -> B) l g : compress (map f l) g = map f (compress l g).
Proof. revert g; induction l as [|a l IH]; intros [|b g]; simpl; auto. destruct b; simpl; rewrite IH; reflexivity. Qed.
Lemma compress_all_true {A} (l : list A) g :
  length g = length l -> forallb (fun b => b) g = true -> compress l g = l.
Proof.
  revert g; induction l as [|a l IH]; intros [|b g] H F; simpl in *; try lia; auto.
  apply andb_true_iff in F as [-> F]. rewrite IH; auto.
Qed.
Lemma compress_In_nth {A} (l : list A) g i x :
  nth_error l i = Some x -> nth_error g i = Some true -> In x (compress l g).
Proof.
  revert l g; induction i as [|i IH]; intros [|a l] [|b g]; simpl; intros H1 H2; try congruence.
  - injection H1 as ->; injection H2 as ->. left; reflexivity.
  - destruct b; simpl; [right|]; eapply IH; eauto.
Qed.
Lemma In_compress_nth {A} (l : list A) g x :
  In x (compress l g) -> exists i, nth_error l i = Some x /\ nth_error g i = Some true.
Proof.
  revert g; induction l as [|a l IH]; intros [|b g]; simpl; try tauto.
  destruct b; simpl; intros H.
  - destruct H as [->|H]; [exists 0%nat; auto|]. destruct (IH _ H) as [i Hi]. exists (S i); exact Hi.
  - destruct (IH _ H) as [i Hi]. exists (S i); exact Hi.
Qed.

Lemma count_true_app g1 g2 : count_true (g1 ++ g2) = (count_true g1 + count_true g2)%nat.
Proof. induction g1 as [|b g IH]; simpl; [|rewrite IH]; lia. Qed.
Lemma count_true_repeat_false n : count_true (repeat false n) = 0%nat.
Proof. induction n; simpl; auto. Qed.
Lemma count_true_repeat_true n : count_true (repeat true n) = n.
Proof. induction n; simpl; auto. Qed.
Lemma count_true_le g : (count_true g <= length g)%nat.
Proof. induction g as [|b g IH]; simpl; [|destruct b]; lia. Qed.
Lemma count_true_zero g : count_true g = 0%nat <-> forallb negb g = true.
Proof. induction g as [|b g IH]; simpl; [tauto|]. destruct b; simpl; [split; [lia|congruence]|exact IH]. Qed.
Lemma count_true_filter g : count_true g = length (filter (fun b => b) g).
Proof. induction g as [|b g IH]; simpl; auto. destruct b; simpl; rewrite IH; reflexivity. Qed.

(* ----- map2, mapi, update ----- *)
Lemma map2_length {A B C} (f : A -> B -> C) l m : length l = length m -> length (map2 f l m) = length l.
Proof. revert m; induction l as [|a l IH]; intros [|b m] H; simpl in *; try lia. rewrite IH; lia. Qed.
Lemma map2_length_min {A B C} (f : A -> B -> C) l m : length (map2 f l m) = Nat.min (length l) (length m).
Proof. revert m; induction l as [|a l IH]; intros [|b m]; simpl in *; auto. Qed.
Lemma map2_nth {A B C} (f : A -> B -> C) l m i a b :
  nth_error l i = Some a -> nth_error m i = Some b -> nth_error (map2 f l m) i = Some (f a b).
Proof.
  revert l m; induction i as [|i IH]; intros [|x l] [|y m]; simpl; intros H1 H2; try congruence.
  apply IH; assumption.
Qed.
Lemma map2_nth_inv {A B C} (f : A -> B -> C) l m i c :
  nth_error (map2 f l m) i = Some c ->
  exists a b, nth_error l i = Some a /\ nth_error m i = Some b /\ c = f a b.
Proof.
  revert l m; induction i as [|i IH]; intros [|x l] [|y m]; simpl; intros H; try congruence.
  - injection H as <-. eauto. - apply IH; assumption.
Qed.
Lemma mapi_from_length {A B} (f : nat -> A -> B) k l : length (mapi_from f k l) = length l.
Proof. revert k; induction l as [|a l IH]; intros k; simpl; auto. Qed.
Lemma mapi_length {A B} (f : nat -> A -> B) l : length (mapi f l) = length l.
Proof. apply mapi_from_length. Qed.
Lemma mapi_from_nth {A B} (f : nat -> A -> B) k l i :
  nth_error (mapi_from f k l) i = option_map (f (k + i)%nat) (nth_error l i).
Proof.
  revert k i; induction l as [|a l IH]; intros k [|i]; simpl; auto.
  - rewrite Nat.add_0_r; reflexivity.
  - rewrite IH. do 2 f_equal. lia.
Qed.
Lemma mapi_nth {A B} (f : nat -> A -> B) l i : nth_error (mapi f l) i = option_map (f i) (nth_error l i).
Proof. apply mapi_from_nth. Qed.
Lemma update_length {A} (l : list A) i x : length (update l i x) = length l.
Proof. revert i; induction l as [|a l IH]; intros [|i]; simpl; auto. Qed.
Lemma update_nth_same {A} (l : list A) i x : (i < length l)%nat -> nth_error (update l i x) i = Some x.
Proof. revert i; induction l as [|a l IH]; intros [|i]; simpl; intros; try lia; auto. apply IH; lia. Qed.
Lemma update_nth_other {A} (l : list A) i j x : i <> j -> nth_error (update l i x) j = nth_error l j.
Proof.
  revert i j; induction l as [|a l IH]; intros [|i] [|j] H; simpl; auto; try congruence.
Qed.
Lemma update_oob {A} (l : list A) i x : (length l <= i)%nat -> update l i x = l.
Proof. revert i; induction l as [|a l IH]; intros [|i]; simpl; intros; try lia; auto. rewrite IH by lia; auto. Qed.

Lemma nth_error_ext {A} (l m : list A) : (forall i, nth_error l i = nth_error m i) -> l = m.
Proof.
  revert m; induction l as [|a l IH]; intros [|b m] H; auto.
  - specialize (H 0%nat); discriminate.
  - specialize (H 0%nat); discriminate.
  - pose proof (H 0%nat) as H0; simpl in H0. injection H0 as ->. f_equal. apply IH. intros i. exact (H (S i)).
Qed.
Lemma Forall2_nth {A B} (R : A -> B -> Prop) l m :
  Forall2 R l m <-> length l = length m /\
    (forall i a b, nth_error l i = Some a -> nth_error m i = Some b -> R a b).
Proof.
  split.
  - induction 1 as [|a b l m H HF IH]; simpl; [split; auto; intros [|i]; discriminate|].
    destruct IH as [IH1 IH2]. split; [lia|]. intros [|i] x y; simpl; intros H1 H2.
    + congruence. + eauto.
  - revert m; induction l as [|a l IH]; intros [|b m] [HL H]; simpl in HL; try lia; constructor.
    + apply (H 0%nat); reflexivity.
    + apply IH; split; [lia|]. intros i x y H1 H2. apply (H (S i)); assumption.
Qed.
Lemma Forall2_impl {A B} (R R' : A -> B -> Prop) l m :
  (forall a b, R a b -> R' a b) -> Forall2 R l m -> Forall2 R' l m.
Proof. intros H; induction 1; constructor; auto. Qed.
Lemma Forall_nth_error {A} (P : A -> Prop) l : Forall P l <-> (forall i a, nth_error l i = Some a -> P a).
Proof.
  rewrite Forall_forall. split.
  - intros H i a Hi. apply H. eapply nth_error_In; eauto.
  - intros H a Ha. apply In_nth_error in Ha as [i Hi]. eauto.
Qed.

(* ----- sorting ----- *)
Lemma insert_perm {A} (lt : A -> A -> bool) x l : Permutation (insert lt x l) (x :: l).
Proof.
  induction l as [|y l IH]; simpl; auto. destruct (lt y x); auto.
  rewrite IH. apply perm_swap.
Qed.
Lemma sort_perm {A} (lt : A -> A -> bool) l : Permutation (sort lt l) l.
Proof. induction l as [|x l IH]; simpl; auto. rewrite insert_perm, IH. reflexivity. Qed.
Lemma sort_length {A} (lt : A -> A -> bool) l : length (sort lt l) = length l.
Proof. apply Permutation_length, sort_perm. Qed.
Lemma sort_In {A} (lt : A -> A -> bool) l x : In x (sort lt l) <-> In x l.
Proof. split; apply Permutation_in; [|symmetry]; apply sort_perm. Qed.
Lemma sort_desc_perm {A} (lt : A -> A -> bool) l : Permutation (sort_desc lt l) l.
Proof. apply sort_perm. Qed.

Section SortKey.
  (* sorting by a key without NaN *)
  Context {A : Type} (key : A -> num).
  Let lt a b := nlt (key a) (key b).
  Let ok a := is_nan (key a) = false.

  Lemma insert_sorted x l :
    ok x -> Forall ok l -> StronglySorted (fun a b => nle (key a) (key b) = true) l ->
    StronglySorted (fun a b => nle (key a) (key b) = true) (insert lt x l).
  Proof.
    intros Hx Hl HS; induction HS as [|y l HS IH Hy]; simpl.
    - repeat constructor.
    - inversion Hl as [|? ? Hy' Hl']; subst. unfold lt at 1. destruct (nlt (key y) (key x)) eqn:E.
      + constructor; [apply IH; assumption|].
        apply Forall_forall. intros z Hz.
        apply (Permutation_in z (insert_perm lt x l)) in Hz. destruct Hz as [<-|Hz].
        * apply nlt_nle; exact E.
        * rewrite Forall_forall in Hy; auto.
      + constructor; [constructor; assumption|].
        assert (Hxy : nle (key x) (key y) = true) by (apply nlt_false_nle; assumption).
        constructor; [exact Hxy|]. rewrite Forall_forall in *. intros z Hz. eapply nle_trans; eauto.
  Qed.
  Lemma sort_sorted l : Forall ok l -> StronglySorted (fun a b => nle (key a) (key b) = true) (sort lt l).
  Proof.
    induction l as [|x l IH]; simpl; intros H; [constructor|].
    inversion H; subst. apply insert_sorted; auto.
    eapply Permutation_Forall; [symmetry; apply sort_perm|assumption].
  Qed.
End SortKey.

Section SortKeyDesc.
  Context {A : Type} (key : A -> num).
  Let lt a b := nlt (key a) (key b).
  Let ok a := is_nan (key a) = false.
  Lemma insert_sorted_desc x l :
    ok x -> Forall ok l -> StronglySorted (fun a b => nle (key b) (key a) = true) l ->
    StronglySorted (fun a b => nle (key b) (key a) = true) (insert (fun a b => lt b a) x l).
  Proof.
    intros Hx Hl HS; induction HS as [|y l HS IH Hy]; simpl.
    - repeat constructor.
    - inversion Hl as [|? ? Hy' Hl']; subst. unfold lt at 1. destruct (nlt (key x) (key y)) eqn:E.
      + constructor; [apply IH; assumption|].
        apply Forall_forall. intros z Hz.
        apply (Permutation_in z (insert_perm _ x l)) in Hz. destruct Hz as [<-|Hz].
        * apply nlt_nle; exact E.
        * rewrite Forall_forall in Hy; auto.
      + constructor; [constructor; assumption|].
        assert (Hxy : nle (key y) (key x) = true) by (apply nlt_false_nle; assumption).
        constructor; [exact Hxy|]. rewrite Forall_forall in *. intros z Hz. eapply nle_trans; eauto.
  Qed.
  Lemma sort_desc_sorted l :
    Forall ok l -> StronglySorted (fun a b => nle (key b) (key a) = true) (sort_desc lt l).
  Proof.
    unfold sort_desc. induction l as [|x l IH]; simpl; intros H; [constructor|].
    inversion H; subst. apply insert_sorted_desc; auto.
    eapply Permutation_Forall; [symmetry; apply sort_perm|assumption].
  Qed.
End SortKeyDesc.

Lemma StronglySorted_app {A} (R : A -> A -> Prop) l1 l2 :
  StronglySorted R (l1 ++ l2) -> forall a b, In a l1 -> In b l2 -> R a b.
Proof.
  induction l1 as [|x l1 IH]; simpl; intros H a b Ha Hb; [contradiction|].
  inversion H as [|? ? HS HF]; subst. destruct Ha as [<-|Ha].
  - rewrite Forall_forall in HF. apply HF. apply in_or_app; auto.
  - eapply IH; eauto.
Qed.
Lemma sorted_firstn_skipn {A} (R : A -> A -> Prop) n l :
  StronglySorted R l -> forall a b, In a (firstn n l) -> In b (skipn n l) -> R a b.
Proof. intros H. apply StronglySorted_app. rewrite firstn_skipn. exact H. Qed.
Lemma In_firstn {A} n (l : list A) x : In x (firstn n l) -> In x l.
Proof. intros H. rewrite <- (firstn_skipn n l). apply in_or_app; auto. Qed.
Lemma In_skipn {A} n (l : list A) x : In x (skipn n l) -> In x l.
Proof. intros H. rewrite <- (firstn_skipn n l). apply in_or_app; auto. Qed.
Lemma In_last_n {A} n (l : list A) x : In x (last_n n l) -> In x l.
Proof. unfold last_n. destruct (Nat.eqb n 0); auto. apply In_skipn. Qed.
Lemma last_n_length {A} n (l : list A) :
  (0 < n)%nat -> length (last_n n l) = Nat.min n (length l).
Proof.
  intros H. unfold last_n. destruct (Nat.eqb_spec n 0); [lia|]. rewrite skipn_length. lia.
Qed.

(* ----- max ----- *)
Lemma fold_max_In {A} (lt : A -> A -> bool) l x : In (fold_left (max_step lt) l x) (x :: l).
Proof.
  revert x; induction l as [|y l IH]; intros x; simpl; auto.
  destruct (IH (max_step lt x y)) as [H|H]; [|auto].
  unfold max_step in H at 1. destruct (lt x y); rewrite <- H; auto.
Qed.
Lemma pymax_In {A} (lt : A -> A -> bool) l x : pymax lt l = Some x -> In x l.
Proof. destruct l as [|a l]; simpl; intros H; [discriminate|]. injection H as <-. apply fold_max_In. Qed.
Lemma pymax_some {A} (lt : A -> A -> bool) l : l <> [] -> exists x, pymax lt l = Some x.
Proof. destruct l; [congruence|]. simpl; eauto. Qed.
Lemma pymax_none {A} (lt : A -> A -> bool) l : pymax lt l = None <-> l = [].
Proof. destruct l; simpl; split; congruence. Qed.

Lemma fold_max_ge {A} (key : A -> num) l x :
  Forall (fun a => is_nan (key a) = false) (x :: l) ->
  forall y, In y (x :: l) ->
  nle (key y) (key (fold_left (max_step (fun a b => nlt (key a) (key b))) l x)) = true.
Proof.
  revert x; induction l as [|z l IH]; intros x HF y Hy; inversion HF as [|? ? Hx HF']; subst.
  - destruct Hy as [<-|[]]; simpl. apply nle_refl; assumption.
  - inversion HF' as [|? ? Hz HF'']; subst. cbn [fold_left].
    set (b := max_step _ x z).
    assert (Hb : is_nan (key b) = false /\ nle (key x) (key b) = true /\ nle (key z) (key b) = true).
    { unfold b, max_step. destruct (nlt (key x) (key z)) eqn:E.
      - repeat split; [assumption|apply nlt_nle; assumption|apply nle_refl; assumption].
      - repeat split; [assumption|apply nle_refl; assumption|apply nlt_false_nle; assumption]. }
    destruct Hb as (Hbn & Hbx & Hbz).
    assert (HF3 : Forall (fun a => is_nan (key a) = false) (b :: l)) by (constructor; assumption).
    destruct Hy as [<-|[<-|Hy]].
    + eapply nle_trans; [exact Hbx|]. apply IH; simpl; auto.
    + eapply nle_trans; [exact Hbz|]. apply IH; simpl; auto.
    + apply IH; simpl; auto.
Qed.
Lemma pymax_ge {A} (key : A -> num) l x :
  Forall (fun a => is_nan (key a) = false) l ->
  pymax (fun a b => nlt (key a) (key b)) l = Some x ->
  forall y, In y l -> nle (key y) (key x) = true.
Proof.
  destruct l as [|a l]; simpl; intros HF H; [discriminate|]. injection H as <-.
  apply fold_max_ge; assumption.
Qed.
Lemma sort_desc_hd_max {A} (key : A -> num) l x r :
  Forall (fun a => is_nan (key a) = false) l ->
  sort_desc (fun a b => nlt (key a) (key b)) l = x :: r ->
  forall y, In y l -> nle (key y) (key x) = true.
Proof.
  intros HF HS y Hy.
  pose proof (sort_desc_sorted key l HF) as HSS. rewrite HS in HSS.
  assert (Hin : In y (x :: r)).
  { rewrite <- HS. apply sort_In. exact Hy. }
  inversion HSS as [|? ? _ HF2]; subst. destruct Hin as [<-|Hin].
  - apply nle_refl. rewrite Forall_forall in HF. auto.
  - rewrite Forall_forall in HF2. auto.
Qed.
Lemma Forall2_len {A B} (R : A -> B -> Prop) l m : Forall2 R l m -> length l = length m.
Proof. induction 1; simpl; auto. Qed.
