(* Rules in other units. *)
From Coq Require Import Lia.
From Verif Require Import PyNum PyList PyMon PyRng L_Num L_List M_Matching M_Rule M_RuleGen M_Mixing M_GenomeOps M_Discovery L_Invariance S_Units.
From Coq Require Import Lqa.

(* ----- computations that are alike ----- *)
Lemma alike_ret {S A B} (R : A -> B -> Prop) x y : R x y -> alike (S := S) R (ret x) (ret y).
Proof. intros H s. split; [reflexivity|exact H]. Qed.
Lemma alike_bind {S A A' B B'} (R : A -> A' -> Prop) (Q : B -> B' -> Prop) (m : St S A) (m' : St S A') (k : A -> St S B) (k' : A' -> St S B') :
  alike R m m' -> (forall x y, R x y -> alike Q (k x) (k' y)) -> alike Q (bind m k) (bind m' k').
Proof. intros HM HK s. specialize (HM s). unfold bind. destruct (m s) as [[x|e] s1], (m' s) as [[x'|e'] s2]; try contradiction; destruct HM as [-> H]; [apply HK; exact H|auto]. Qed.
Lemma alike_lift {S A B} (R : A -> B -> Prop) (r : res A) (r' : res B) : alike_res R r r' -> alike (S := S) R (lift r) (lift r').
Proof. intros H s. unfold lift. destruct r, r'; cbn in *; auto. Qed.
Lemma alike_same {S A} (m : St S A) : alike eq m m.
Proof. intros s. destruct (m s) as [[x|e] s1]; auto. Qed.
Lemma alike_weak {S A B} (R Q : A -> B -> Prop) (m : St S A) m' : (forall x y, R x y -> Q x y) -> alike R m m' -> alike Q m m'.
Proof. intros H HM s. specialize (HM s). destruct (m s) as [[x|e] s1], (m' s) as [[x'|e'] s2]; try contradiction; destruct HM; auto. Qed.
Lemma alike_mmap {S A A' B B'} (P : A -> A' -> Prop) (R : B -> B' -> Prop) (f : A -> St S B) (f' : A' -> St S B') l l' :
  (forall x y, P x y -> alike R (f x) (f' y)) -> Forall2 P l l' -> alike (Forall2 R) (mmap f l) (mmap f' l').
Proof.
  intros Hf. induction 1 as [|x y l l' H HF IH]; cbn [mmap]; [apply alike_ret; constructor|]. eapply alike_bind; [apply Hf; exact H|]. intros b b' Hb. eapply alike_bind; [exact IH|]. intros bs bs' Hbs. apply alike_ret. constructor; assumption.
Qed.
Lemma alike_repeat {A B} (R : A -> B -> Prop) (m : St rng A) m' n : alike R m m' -> alike (Forall2 R) (repeat_m n m) (repeat_m n m').
Proof. intros H. induction n as [|n IH]; cbn [repeat_m]; [apply alike_ret; constructor|]. eapply alike_bind; [exact H|]. intros x y Hx. eapply alike_bind; [exact IH|]. intros xs ys Hxs. apply alike_ret. constructor; assumption. Qed.
Lemma alike_raise {S A B} (R : A -> B -> Prop) e : alike (S := S) (A := A) (B := B) R (raise e) (raise e).
Proof. intros s. cbn. auto. Qed.
Lemma alike_rmap {A A' B B'} (P : A -> A' -> Prop) (R : B -> B' -> Prop) (f : A -> res B) (f' : A' -> res B') l l' :
  (forall x y, P x y -> alike_res R (f x) (f' y)) -> Forall2 P l l' -> alike_res (Forall2 R) (rmap f l) (rmap f' l').
Proof.
  intros Hf. induction 1 as [|x y l l' H HF IH]; cbn [rmap]; [constructor|]. specialize (Hf x y H). destruct (f x), (f' y); cbn in *; try contradiction; [|exact Hf]. destruct (rmap f l), (rmap f' l'); cbn in *; try contradiction; [constructor; assumption|exact IH].
Qed.
Lemma eq_Forall2 {A} (l l' : list A) : Forall2 eq l l' -> l = l'.
Proof. induction 1; congruence. Qed.
Lemma Forall2_eq {A} (l : list A) : Forall2 eq l l.
Proof. induction l; constructor; auto. Qed.
Lemma rmap_eq {A A' B} (P : A -> A' -> Prop) (f : A -> res B) (f' : A' -> res B) l l' : (forall x y, P x y -> f x = f' y) -> Forall2 P l l' -> rmap f l = rmap f' l'.
Proof. intros Hf. induction 1 as [|x y l l' H HF IH]; cbn [rmap]; [reflexivity|]. rewrite (Hf x y H), IH. reflexivity. Qed.
Lemma alike_choices {A B} (R : A -> B -> Prop) l l' n : Forall2 R l l' -> alike (Forall2 R) (choices l n) (choices l' n).
Proof.
  intros H g. unfold choices. pose proof (L_List.Forall2_len _ _ _ H) as HL. destruct H as [|x x' l l' Hx HF]; [destruct (Nat.eqb n 0); auto|]. destruct (draws n g) as [qs g']. split; [reflexivity|].
  rewrite <- HL. induction qs as [|q qs IH]; cbn [map]; constructor; [|exact IH]. apply nth_same; [constructor; assumption|exact Hx].
Qed.
Lemma alike_choices_p {A B} (R : A -> B -> Prop) l l' n w : Forall2 R l l' -> alike (Forall2 R) (choices_p l n w) (choices_p l' n w).
Proof.
  intros H g. unfold choices_p. rewrite <- (L_List.Forall2_len _ _ _ H). destruct (_ || _)%bool; [auto|]. destruct H as [|x x' l l' Hx HF]; [auto|]. destruct (draws n g) as [qs g']. split; [reflexivity|].
  induction qs as [|q qs IH]; cbn [map]; constructor; [|exact IH]. apply nth_same; [constructor; assumption|exact Hx].
Qed.
Lemma Forall2_filter {A B} (R : A -> B -> Prop) (f : A -> bool) (f' : B -> bool) l l' : (forall x y, R x y -> f x = f' y) -> Forall2 R l l' -> Forall2 R (filter f l) (filter f' l').
Proof. intros Hf. induction 1 as [|x y l l' H HF IH]; cbn [filter]; [constructor|]. rewrite (Hf x y H). destruct (f' y); [constructor; assumption|exact IH]. Qed.
Lemma Forall2_firstn {A B} (R : A -> B -> Prop) l l' : Forall2 R l l' -> forall n, Forall2 R (firstn n l) (firstn n l').
Proof. induction 1 as [|x y l l' H HF IH]; intros [|n]; cbn; constructor; auto. Qed.
Lemma Forall2_map {A A' B B'} (P : A -> A' -> Prop) (R : B -> B' -> Prop) (f : A -> B) (f' : A' -> B') l l' : (forall x y, P x y -> R (f x) (f' y)) -> Forall2 P l l' -> Forall2 R (map f l) (map f' l').
Proof. intros Hf. induction 1; cbn; constructor; auto. Qed.

(* ----- points and bounds ----- *)
Section Units.
Variables (a : Q) (shifts : list Q).
Hypothesis Ha : 0 < a.
Notation point := (same_point a shifts). Notation box := (same_bounds a shifts). Notation dist := (distance a).
Lemma each3_len {A B C} (R : A -> B -> C -> Prop) l m n : each3 R l m n -> length m = length l /\ length n = length l.
Proof. induction 1 as [|x y z l m n H HE [I1 I2]]; cbn; auto. Qed.
Lemma point_len x x' : point x x' -> length x = length x'.
Proof. intros H. apply each3_len in H as [H1 H2]. congruence. Qed.
Lemma box_len b b' : box b b' -> length b = length b'.
Proof. intros H. apply each3_len in H as [H1 H2]. congruence. Qed.
Lemma unit_le b s t s' t' : in_units a b s s' -> in_units a b t t' -> qle s' t' = qle s t.
Proof. unfold in_units. intros H1 H2. destruct (qle_spec s t) as [H|H]; [apply qle_iff; nra|]. destruct (qle_spec s' t') as [H'|H']; [exfalso; nra|reflexivity]. Qed.
Lemma unit_lt b s t s' t' : in_units a b s s' -> in_units a b t t' -> qlt s' t' = qlt s t.
Proof. unfold in_units. intros H1 H2. destruct (qlt_spec s t) as [H|H]; [apply qlt_iff; nra|]. destruct (qlt_spec s' t') as [H'|H']; [exfalso; nra|reflexivity]. Qed.
Lemma unit_max b s t s' t' : in_units a b s s' -> in_units a b t t' -> in_units a b (qmax s t) (qmax s' t').
Proof. intros H1 H2. unfold qmax. rewrite (unit_le b s t s' t' H1 H2). destruct (qle s t); assumption. Qed.
Lemma unit_min b s t s' t' : in_units a b s s' -> in_units a b t t' -> in_units a b (qmin s t) (qmin s' t').
Proof. intros H1 H2. unfold qmin. rewrite (unit_le b s t s' t' H1 H2). destruct (qle s t); assumption. Qed.
Lemma unit_clip b lo hi t lo' hi' t' : in_units a b lo lo' -> in_units a b hi hi' -> in_units a b t t' -> in_units a b (qclip lo hi t) (qclip lo' hi' t').
Proof. intros H1 H2 H3. unfold qclip. first [apply unit_min; [apply unit_max|]; assumption | apply unit_max; [|apply unit_min]; assumption | apply unit_min; [assumption|apply unit_max; assumption] | idtac]. Qed.
Lemma dist_lt s t s' t' : dist s s' -> dist t t' -> qlt s' t' = qlt s t.
Proof. unfold distance. intros H1 H2. destruct (qlt_spec s t) as [H|H]; [apply qlt_iff; nra|]. destruct (qlt_spec s' t') as [H'|H']; [exfalso; nra|reflexivity]. Qed.
Lemma dist_zero : dist 0 0.
Proof. unfold distance. ring. Qed.
Lemma unit_add b t t' n n' : in_units a b t t' -> dist n n' -> in_units a b (t + n) (t' + n').
Proof. unfold in_units, distance. intros -> ->. ring. Qed.
Lemma unit_sub b t t' n n' : in_units a b t t' -> dist n n' -> in_units a b (t - n) (t' - n').
Proof. unfold in_units, distance. intros -> ->. ring. Qed.
Lemma dist_opp n n' : dist n n' -> dist (- n) (- n').
Proof. unfold distance. intros ->. ring. Qed.
Lemma dist_half n n' : dist n n' -> dist (n / 2) (n' / 2).
Proof. unfold distance. intros ->. field. Qed.
Lemma dist_diff b s t s' t' : in_units a b s s' -> in_units a b t t' -> dist (s - t) (s' - t').
Proof. unfold in_units, distance. intros -> ->. ring. Qed.
Lemma unit_mean b s t s' t' : in_units a b s s' -> in_units a b t t' -> in_units a b ((s + t) / 2) ((s' + t') / 2).
Proof. unfold in_units. intros -> ->. field. Qed.
Lemma unit_normal b m m' s s' q : in_units a b m m' -> dist s s' -> in_units a b (normal_of m s q) (normal_of m' s' q).
Proof. unfold in_units, distance, normal_of. intros -> ->. ring. Qed.
Lemma dist_normal s s' q : dist s s' -> dist (normal_of 0 s q) (normal_of 0 s' q).
Proof. unfold distance, normal_of. intros ->. ring. Qed.
Lemma dist_halfnorm s s' q : dist s s' -> dist (halfnorm_of s q) (halfnorm_of s' q).
Proof. unfold distance, halfnorm_of. intros ->. ring. Qed.
Lemma dist_uniform l l' h h' q : dist l l' -> dist h h' -> dist (uniform_of l h q) (uniform_of l' h' q).
Proof. unfold distance, uniform_of. intros -> ->. ring. Qed.
Lemma unit_uniform b l l' h h' q : in_units a b l l' -> in_units a b h h' -> in_units a b (uniform_of l h q) (uniform_of l' h' q).
Proof. unfold in_units, uniform_of. intros -> ->. ring. Qed.
Lemma scale_same s s' : dist s s' -> check_scale s' = check_scale s.
Proof. intros H. unfold check_scale. rewrite (dist_lt s 0 s' 0 H dist_zero). reflexivity. Qed.

(* lists, coordinate by coordinate *)
Lemma each3_map2 {A A' B B' C C'} (S : Q -> A -> A' -> Prop) (T : Q -> B -> B' -> Prop) (R : Q -> C -> C' -> Prop) (f : A -> B -> C) (f' : A' -> B' -> C') :
  (forall b x x' y y', S b x x' -> T b y y' -> R b (f x y) (f' x' y')) -> forall sh l l' m m', each3 S sh l l' -> each3 T sh m m' -> each3 R sh (map2 f l m) (map2 f' l' m').
Proof. intros Hf sh l l' m m' H. revert m m'. induction H as [|b x x' sh l l' H HE IH]; intros m m' HM; inversion HM; subst; cbn; constructor; auto. Qed.
Lemma each3_map {A A' C C'} (S : Q -> A -> A' -> Prop) (R : Q -> C -> C' -> Prop) (f : A -> C) (f' : A' -> C') : (forall b x x', S b x x' -> R b (f x) (f' x')) -> forall sh l l', each3 S sh l l' -> each3 R sh (map f l) (map f' l').
Proof. intros Hf sh l l' H. induction H; cbn; constructor; auto. Qed.
Lemma each3_draws {A A' C C'} (S : Q -> A -> A' -> Prop) (R : Q -> C -> C' -> Prop) (f : A -> Q -> C) (f' : A' -> Q -> C') : (forall b x x' q, S b x x' -> R b (f x q) (f' x' q)) ->
  forall sh l l' qs, each3 S sh l l' -> length qs = length sh -> each3 R sh (map2 f l qs) (map2 f' l' qs).
Proof. intros Hf sh l l' qs H. revert qs. induction H as [|b x x' sh l l' H HE IH]; intros [|q qs] HL; try discriminate; cbn; constructor; auto. Qed.
Lemma each3_combine {A A' B B'} (S : Q -> A -> A' -> Prop) (T : Q -> B -> B' -> Prop) sh l l' m m' : each3 S sh l l' -> each3 T sh m m' -> each3 (fun b p p' => S b (fst p) (fst p') /\ T b (snd p) (snd p')) sh (combine l m) (combine l' m').
Proof. intros H. revert m m'. induction H as [|b x x' sh l l' H HE IH]; intros m m' HM; inversion HM; subst; cbn; constructor; auto. Qed.
Lemma each3_of {A A'} (S : Q -> A -> A' -> Prop) sh (f : Q -> A) (f' : Q -> A') qs : (forall b q, S b (f q) (f' q)) -> length qs = length sh -> each3 S sh (map f qs) (map f' qs).
Proof. intros Hf. revert qs. induction sh as [|b sh IH]; intros [|q qs] HL; try discriminate; cbn; constructor; auto. Qed.
Lemma draws_len n g : length (fst (draws n g)) = n.
Proof. revert g. induction n as [|n IH]; intros g; [reflexivity|]. cbn. destruct (draws n _) as [qs g2] eqn:E. cbn. specialize (IH (mkRng (tape g) (S (pos g)))). rewrite E in IH. cbn in IH. congruence. Qed.

(* ----- matching and constraints ----- *)
Lemma row_same b b' : forall sh x x', each3 (same_limits a) sh b b' -> each3 (in_units a) sh x x' -> row_matches OrderedBound b' x' = row_matches OrderedBound b x.
Proof.
  intros sh x x' H. revert x x'. induction H as [|s l l' sh b b' [H1 H2] HE IH]; intros x x' HX; inversion HX as [|s0 t t' sh0 x0 x0' Ht HX']; subst; cbn [row_matches limits fst snd]; [reflexivity|].
  rewrite (unit_le s _ _ _ _ H1 Ht), (unit_le s _ _ _ _ Ht H2), (IH _ _ HX'). reflexivity.
Qed.
Lemma match_same m m' X X' : rescaled_box a shifts m m' -> Forall2 point X X' -> match_call m' X' = match_call m X.
Proof.
  intros (T1 & T2 & HB) HX. unfold match_call. symmetry. apply (rmap_eq point); [|exact HX]. intros x x' Hx. unfold bcast_row. destruct (each3_len _ _ _ _ HB) as [L1 L2]. destruct (each3_len _ _ _ _ Hx) as [L3 L4].
  rewrite L1, L2, L3, L4, Nat.eqb_refl, T1, T2. f_equal. symmetry. exact (row_same _ _ _ _ _ HB Hx).
Qed.
Lemma width_same b l l' : same_limits a b l l' -> dist (width OrderedBound l) (width OrderedBound l').
Proof. intros [H1 H2]. cbn [width]. eapply dist_diff; eassumption. Qed.
Lemma constrain_same c c' m m' : rescaled_constraint a shifts c c' -> rescaled_box a shifts m m' -> rescaled_box a shifts (constrain c m) (constrain c' m').
Proof.
  intros HC (T1 & T2 & HB). destruct m as [t b], m' as [t' b']. cbn [mt bnd] in *. subst t t'.
  assert (HClip : forall s s' b b', box s s' -> box b b' -> box (map2 (clip_pair OrderedBound) s b) (map2 (clip_pair OrderedBound) s' b')).
  { intros s s' b0 b0' HS H0. eapply each3_map2; [|exact HS|exact H0]. intros sh l l' k k' [A1 A2] [B1 B2]. split; cbn [clip_pair fst snd]; apply unit_clip; assumption. }
  assert (HMin : forall r r', dist r r' -> box (if qlt 0 r then map (min_range_pair OrderedBound r) b else b) (if qlt 0 r' then map (min_range_pair OrderedBound r') b' else b')).
  { intros r r' Hr. rewrite (dist_lt 0 r 0 r' dist_zero Hr). destruct (qlt 0 r); [|exact HB]. eapply each3_map; [|exact HB]. intros sh l l' Hl. unfold min_range_pair. rewrite (dist_lt _ _ _ _ (width_same _ _ _ Hl) Hr).
    destruct (qlt _ r); [|exact Hl]. destruct Hl as [A1 A2]. split; cbn [fst snd]; [apply unit_sub|apply unit_add]; auto using dist_half. }
  destruct c as [s|r|r s], c' as [s'|r'|r' s']; try contradiction; cbn [constrain rescaled_constraint] in *.
  - split; [reflexivity|]. split; [reflexivity|]. apply HClip; assumption.
  - split; [reflexivity|]. split; [reflexivity|]. apply HMin. exact HC.
  - destruct HC as [Hr HS]. split; [reflexivity|]. split; [reflexivity|]. cbn [clip min_range mt bnd]. apply HClip; [exact HS|]. apply HMin. exact Hr.
Qed.
(* volumes are multiplied by one factor *)
Lemma prod_same sh : exists f, 0 < f /\ forall b b', each3 (same_limits a) sh b b' -> qprod (map (width OrderedBound) b') == f * qprod (map (width OrderedBound) b).
Proof.
  induction sh as [|s sh (f & Hf & IH)]; [exists 1; split; [lra|]; intros b b' H; inversion H; subst; cbn; ring|]. exists (a * f). split; [nra|]. intros b b' H. inversion H as [|s0 l l' sh0 b0 b0' H0 HE]; subst.
  assert (E : forall q l, qprod (q :: l) == q * qprod l) by (intros; reflexivity). cbn [map]. pose proof (width_same _ _ _ H0) as HW. unfold distance in HW. rewrite !E, (IH _ _ HE), HW. ring.
Qed.
Lemma volume_less m m' k k' : rescaled_box a shifts m m' -> rescaled_box a shifts k k' -> qlt (volume m') (volume k') = qlt (volume m) (volume k).
Proof.
  intros (T1 & T2 & H1) (T3 & T4 & H2). unfold volume. rewrite T1, T2, T3, T4. destruct (prod_same shifts) as (f & Hf & HP). apply HP in H1, H2.
  revert H1 H2. generalize (qprod (map (width OrderedBound) (bnd m'))), (qprod (map (width OrderedBound) (bnd m))), (qprod (map (width OrderedBound) (bnd k'))), (qprod (map (width OrderedBound) (bnd k))).
  intros p' p r' r H1 H2. destruct (qlt_spec p r) as [H|H]; destruct (qlt_spec p' r') as [H'|H']; try reflexivity; exfalso; nra.
Qed.

(* ----- initialisation and mutation ----- *)
Notation rbox := (rescaled_box a shifts).
Lemma sort_units b l l' : same_limits a b l l' -> same_limits a b (sort_row l) (sort_row l').
Proof. intros [H1 H2]. split; cbn [sort_row fst snd]; [apply unit_min|apply unit_max]; assumption. Qed.
Ltac drawn n g q q' g' := let E := fresh in pose proof (draws_len n g) as E; destruct (draws n g) as [q g']; cbn [fst] in E.
Lemma init_same i i' x x' : rescaled_init a i i' -> point x x' -> alike rbox (init_rule i OrderedBound x) (init_rule i' OrderedBound x').
Proof.
  intros HI HX g. destruct (each3_len _ _ _ _ HX) as [L1 L2]. unfold init_rule, init_bounds. rewrite L1, L2.
  destruct i as [|[s|s0 s1]|s], i' as [|[s'|s0' s1']|s']; try contradiction; cbn [rescaled_init rescaled_sigma] in HI.
  - split; [reflexivity|]. split; [reflexivity|]. split; [reflexivity|]. cbn [bnd]. exact (each3_combine _ _ _ _ _ _ _ HX HX).
  - rewrite (scale_same s s' HI). destruct (check_scale s); [|auto]. drawn (length shifts) g q0 q0' g1. drawn (length shifts) g1 q1 q1' g2.
    split; [reflexivity|]. split; [reflexivity|]. split; [reflexivity|]. cbn [bnd]. eapply each3_map; [intros b l l'; apply sort_units|].
    apply (each3_combine (in_units a) (in_units a)); (eapply each3_draws; [|exact HX|assumption]); intros b m m' q Hm; apply unit_normal; assumption.
  - auto.
  - rewrite (scale_same s s' HI). destruct (check_scale s); [|auto]. drawn (length shifts) g q0 q0' g1. drawn (length shifts) g1 q1 q1' g2.
    split; [reflexivity|]. split; [reflexivity|]. split; [reflexivity|]. cbn [bnd].
    apply (each3_combine (in_units a) (in_units a)); (eapply each3_draws; [|exact HX|assumption]); intros b m m' q Hm; [apply unit_sub|apply unit_add]; auto using dist_halfnorm.
Qed.
Lemma noise_same sh b b' n n' : each3 (same_limits a) sh b b' -> each3 (fun (_ : Q) (p p' : Q * Q) => dist (fst p) (fst p') /\ dist (snd p) (snd p')) sh n n' -> each3 (same_limits a) sh (add_noise b n) (add_noise b' n').
Proof. intros H1 H2. unfold add_noise. eapply each3_map2; [|exact H1|exact H2]. intros s x x' y y' [A1 A2] [B1 B2]. split; cbn [fst snd]; apply unit_add; assumption. Qed.
Lemma pair_up_same sh (f f' : Q -> Q) : (forall q, dist (f q) (f' q)) -> forall qs, length qs = (2 * length sh)%nat -> each3 (fun (_ : Q) (p p' : Q * Q) => dist (fst p) (fst p') /\ dist (snd p) (snd p')) sh (pair_up (map f qs)) (pair_up (map f' qs)).
Proof.
  intros Hf. induction sh as [|b sh IH]; intros qs HL; [destruct qs; [constructor|discriminate]|]. destruct qs as [|q [|r qs]]; cbn in HL; try lia. cbn [map pair_up]. constructor; [split; apply Hf|]. apply IH. lia.
Qed.
Lemma dists_same sh (f f' h h' : Q -> Q) q0 q1 : (forall q, dist (f q) (f' q)) -> (forall q, dist (h q) (h' q)) -> length q0 = length sh -> length q1 = length sh ->
  each3 (fun (_ : Q) (p p' : Q * Q) => dist (fst p) (fst p') /\ dist (snd p) (snd p')) sh (combine (map f q0) (map h q1)) (combine (map f' q0) (map h' q1)).
Proof. intros Hf Hh H0 H1. apply (each3_combine (fun _ => dist) (fun _ => dist)); apply each3_of; auto. Qed.
Lemma mutate_same mu mu' m m' : rescaled_operator a mu mu' -> rbox m m' -> alike rbox (mutate mu m) (mutate mu' m').
Proof.
  intros HM (T1 & T2 & HB) g. destruct m as [t b], m' as [t' b']. cbn [mt bnd] in *. subst t t'. destruct (each3_len _ _ _ _ HB) as [L1 L2]. unfold mutate. cbn [mt bnd].
  assert (HN : forall n n' (g' : rng), each3 (same_limits a) shifts n n' ->
    g' = g' /\ rbox (mkMatching OrderedBound (sort_if_ordered OrderedBound n)) (mkMatching OrderedBound (sort_if_ordered OrderedBound n'))).
  { intros n n' g' Hn. split; [reflexivity|]. split; [reflexivity|]. split; [reflexivity|]. cbn [bnd sort_if_ordered]. eapply each3_map; [intros sh l l'; apply sort_units|exact Hn]. }
  destruct mu as [[s|s0 s1]|[s|s0 s1]|[s|s0 s1]|[s|s0 s1]|[s|s0 s1]], mu' as [[s'|s0' s1']|[s'|s0' s1']|[s'|s0' s1']|[s'|s0' s1']|[s'|s0' s1']]; try contradiction; cbn [rescaled_operator rescaled_sigma] in HM; cbn [noise_bounds sigma_error]; auto;
    try rewrite (scale_same s s' HM); try (match goal with |- context [check_scale s] => destruct (check_scale s); [|auto] end); rewrite L1, L2.
  - drawn (2 * length shifts)%nat g q q' g1. apply HN. apply noise_same; [exact HB|]. apply pair_up_same; [|assumption]. intros r. apply dist_normal. exact HM.
  - drawn (length shifts) g q0 q0' g1. drawn (length shifts) g1 q1 q1' g2. apply HN.
    assert (HMn : each3 (in_units a) shifts (map (fun c => (fst c + snd c) / 2) b) (map (fun c => (fst c + snd c) / 2) b')) by (eapply each3_map; [|exact HB]; intros sh l l' [A1 A2]; apply unit_mean; assumption).
    apply (each3_combine (in_units a) (in_units a)); (eapply each3_draws; [|exact HMn|assumption]); intros sh c c' q Hm; [apply unit_sub|apply unit_add]; auto using dist_halfnorm, dist_half.
  - drawn (length shifts) g q0 q0' g1. drawn (length shifts) g1 q1 q1' g2. apply HN. apply noise_same; [exact HB|]. apply dists_same; auto; intros q; auto using dist_halfnorm, dist_half, dist_opp.
  - drawn (2 * length shifts)%nat g q q' g1. apply HN. apply noise_same; [exact HB|]. apply pair_up_same; [|assumption]. intros r. apply dist_uniform; auto using dist_opp.
  - drawn (length shifts) g q0 q0' g1. drawn (length shifts) g1 q1 q1' g2. apply HN. apply noise_same; [exact HB|]. apply dists_same; auto; intros q; auto using dist_uniform, dist_opp, dist_zero.
Qed.
Lemma mutate_rule_same mu mu' m m' : rescaled_mutation a mu mu' -> rbox m m' -> alike rbox (mutate_rule mu m) (mutate_rule mu' m').
Proof.
  intros HM HB. destruct mu as [mu|mu l h], mu' as [mu'|mu' l' h']; try contradiction; cbn [rescaled_mutation] in HM; cbn [mutate_rule]; [apply mutate_same; assumption|]. destruct HM as (H1 & H2 & H3).
  intros g. unfold sigma_range. destruct (draw g) as [q g1]. refine (mutate_same (with_sigma mu (Scalar (uniform_of l h q))) (with_sigma mu' (Scalar (uniform_of l' h' q))) m m' _ HB g1).
  destruct mu, mu'; try contradiction; cbn; apply dist_uniform; assumption.
Qed.
End Units.
