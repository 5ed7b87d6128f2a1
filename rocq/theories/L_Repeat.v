(* Repeated samples. *)
From Coq Require Import Lia Permutation.
From Verif Require Import PyNum PyList PyMon PyRng PyStat L_Num L_List M_Matching M_Rule M_RuleGen M_Mixing M_Discovery M_Logging L_Invariance S_Units L_Units L_UnitsDisc S_Order S_Repeat.
From Coq Require Import Lqa.

Section Lists.
Variable k : nat.
Hypothesis Hk : (0 < k)%nat.
Lemma rep_cons {A} (x : A) l : repeated k (x :: l) = repeat x k ++ repeated k l.
Proof. reflexivity. Qed.
Lemma rep_len {A} (l : list A) : length (repeated k l) = (length l * k)%nat.
Proof. clear Hk. induction l as [|x l IH]; [reflexivity|]. rewrite rep_cons, app_length, repeat_length, IH. cbn. lia. Qed.
Lemma rep_nil {A} (l : list A) : repeated k l = [] <-> l = [].
Proof. split; [|intros ->; reflexivity]. destruct l as [|x l]; [reflexivity|]. intros H. apply (f_equal (@length A)) in H. rewrite rep_len in H. cbn in H. lia. Qed.
Lemma map_rep1 {A B} (f : A -> B) x n : map f (repeat x n) = repeat (f x) n.
Proof. induction n; cbn; congruence. Qed.
Lemma rep_map {A B} (f : A -> B) l : map f (repeated k l) = repeated k (map f l).
Proof. induction l as [|x l IH]; [reflexivity|]. cbn [map]. rewrite !rep_cons, map_app, map_rep1, IH. reflexivity. Qed.
Lemma map2_app {A B C} (f : A -> B -> C) l1 l2 m1 m2 : length l1 = length m1 -> map2 f (l1 ++ l2) (m1 ++ m2) = map2 f l1 m1 ++ map2 f l2 m2.
Proof. clear Hk. revert m1. induction l1 as [|x l1 IH]; intros [|z m1] H; cbn in *; try discriminate; [reflexivity|]. rewrite IH by lia. reflexivity. Qed.
Lemma map2_rep1 {A B C} (f : A -> B -> C) x z n : map2 f (repeat x n) (repeat z n) = repeat (f x z) n.
Proof. induction n; cbn; congruence. Qed.
Lemma map2_nil_r {A B C} (f : A -> B -> C) l : map2 f l [] = [].
Proof. destruct l; reflexivity. Qed.
Lemma rep_map2 {A B C} (f : A -> B -> C) l : forall m, map2 f (repeated k l) (repeated k m) = repeated k (map2 f l m).
Proof.
  induction l as [|x l IH]; intros [|z m]; try reflexivity; [apply map2_nil_r|]. cbn [map2]. rewrite !rep_cons, map2_app by (rewrite !repeat_length; reflexivity). rewrite map2_rep1, IH. reflexivity.
Qed.
Lemma compress_nil_r {A} (l : list A) : compress l [] = [].
Proof. destruct l; reflexivity. Qed.
Lemma compress_app {A} (l1 l2 : list A) b1 b2 : length l1 = length b1 -> compress (l1 ++ l2) (b1 ++ b2) = compress l1 b1 ++ compress l2 b2.
Proof. clear Hk. revert b1. induction l1 as [|x l1 IH]; intros [|b b1] H; cbn in *; try discriminate; [reflexivity|]. destruct b; cbn; rewrite IH by lia; reflexivity. Qed.
Lemma compress_rep1 {A} (x : A) b n : compress (repeat x n) (repeat b n) = if b then repeat x n else [].
Proof. induction n as [|n IH]; [destruct b; reflexivity|]. cbn. rewrite IH. destruct b; reflexivity. Qed.
Lemma rep_compress {A} (l : list A) : forall b, compress (repeated k l) (repeated k b) = repeated k (compress l b).
Proof.
  induction l as [|x l IH]; intros [|b bs]; try reflexivity; [apply compress_nil_r|]. cbn [compress]. rewrite !rep_cons, compress_app by (rewrite !repeat_length; reflexivity). rewrite compress_rep1, IH. destruct b; reflexivity.
Qed.
Lemma rep_count b : count_true (repeated k b) = (count_true b * k)%nat.
Proof.
  clear Hk.
  assert (H : forall c n, count_true (repeat c n) = if c then n else 0%nat) by (intros c n; induction n as [|n IH]; [destruct c; reflexivity|]; cbn; destruct c; cbn in *; lia).
  assert (HA : forall a c, count_true (a ++ c) = (count_true a + count_true c)%nat) by (intros a c; induction a as [|[] a IH]; cbn; lia).
  induction b as [|c b IH]; [reflexivity|]. rewrite rep_cons, HA, H, IH. destruct c; cbn; lia.
Qed.
Lemma rep_exists {A} (f : A -> bool) l : existsb f (repeated k l) = existsb f l.
Proof.
  induction l as [|x l IH]; [reflexivity|]. rewrite rep_cons, existsb_app, IH. cbn [existsb]. f_equal. destruct k as [|n]; [lia|]. cbn. destruct (f x) eqn:E; [reflexivity|]. cbn. clear - E. induction n; cbn; rewrite ?E; auto.
Qed.
Lemma rep_rmap {A B} (f : A -> res B) l : rmap f (repeated k l) = let? ys := rmap f l in Ok (repeated k ys).
Proof.
  assert (HA : forall a c : list A, rmap f (a ++ c) = let? x := rmap f a in let? z := rmap f c in Ok (x ++ z)).
  { intros a c. induction a as [|x a IH]; cbn; [destruct (rmap f c); reflexivity|]. destruct (f x); cbn; [|reflexivity]. rewrite IH. destruct (rmap f a); cbn; [|reflexivity]. destruct (rmap f c); reflexivity. }
  assert (H1 : forall x n, rmap f (repeat x (S n)) = let? v := f x in Ok (repeat v (S n))).
  { intros x n. induction n as [|n IH]; [cbn; destruct (f x); reflexivity|]. change (repeat x (S (S n))) with (x :: repeat x (S n)). cbn [rmap]. rewrite IH. destruct (f x); reflexivity. }
  induction l as [|x l IH]; [reflexivity|]. rewrite rep_cons, HA, IH. destruct k as [|n] eqn:E; [lia|]. rewrite H1. cbn [rmap]. destruct (f x); cbn [rbind]; [|reflexivity]. destruct (rmap f l); reflexivity.
Qed.
Lemma rep_qsum l : qsum (repeated k l) == qofnat k * qsum l.
Proof.
  assert (H1 : forall x n, qsum (repeat x n) == qofnat n * x).
  { intros x n. induction n as [|n IH]; [unfold qofnat; cbn; ring|]. cbn [repeat]. change (qsum (x :: repeat x n)) with (x + qsum (repeat x n)). rewrite IH. unfold qofnat. rewrite Nat2Z.inj_succ, <- Z.add_1_r, inject_Z_plus. ring. }
  induction l as [|x l IH]; [cbn; ring|]. rewrite rep_cons, qsum_app, H1, IH. change (qsum (x :: l)) with (x + qsum l). ring.
Qed.
Lemma qofnat_mul a b : qofnat (a * b) == qofnat a * qofnat b.
Proof. unfold qofnat. rewrite Nat2Z.inj_mul, inject_Z_mult. reflexivity. Qed.
Lemma k_pos : 0 < qofnat k.
Proof. unfold qofnat. change 0 with (inject_Z 0). rewrite <- Zlt_Qlt. lia. Qed.
Lemma div_both n d : qofnat k * n / (d * qofnat k) == n / d.
Proof.
  pose proof k_pos. destruct (Qeq_dec d 0) as [E|E].
  - assert (E1 : d * qofnat k == 0) by (rewrite E; ring). unfold Qdiv. rewrite E1, E. change (/ 0) with 0. ring.
  - field. split; [exact E|]. intros F. rewrite F in H. discriminate.
Qed.
Lemma sums_same l l' : Forall2 Qeq (repeated k l) l' -> qsum l' == qofnat k * qsum l.
Proof. intros H. rewrite <- (qsum_same _ _ H). apply rep_qsum. Qed.
Lemma map2_same (f : Q -> Q -> Q) l l' m m' : (forall a b c d, a == b -> c == d -> f a c == f b d) -> Forall2 Qeq l l' -> Forall2 Qeq m m' -> Forall2 Qeq (map2 f l m) (map2 f l' m').
Proof. intros Hf HL. revert m m'. induction HL as [|x x' l l' Hx HL IH]; intros m m' [|z z' m0 m0' Hz HM]; cbn; constructor; auto. Qed.
Lemma Forall2_Qeq_refl l : Forall2 Qeq l l.
Proof. induction l; constructor; auto. reflexivity. Qed.
Lemma mse_repeated y p p' : Forall2 Qeq (repeated k p) p' -> mse (repeated k y) p' == mse y p.
Proof.
  intros HP. unfold mse. rewrite rep_len, qofnat_mul. assert (E : qsum (map2 (fun a b => (a - b) * (a - b)) (repeated k y) p') == qofnat k * qsum (map2 (fun a b => (a - b) * (a - b)) y p)).
  { rewrite <- (qsum_same (map2 (fun a b => (a - b) * (a - b)) (repeated k y) (repeated k p))); [rewrite rep_map2; apply rep_qsum|]. apply map2_same; [intros a b c d -> ->; reflexivity|apply Forall2_Qeq_refl|exact HP]. }
  rewrite E. apply div_both.
Qed.
Lemma rep_fill flags : forall vals, fill (repeated k flags) (repeated k vals) = repeated k (fill flags vals).
Proof.
  assert (H0 : forall n fl vs, fill (repeat false n ++ fl) vs = repeat 0 n ++ fill fl vs) by (intros n fl vs; induction n as [|n IH]; cbn; congruence).
  assert (H1 : forall n fl v vs, fill (repeat true n ++ fl) (repeat v n ++ vs) = repeat v n ++ fill fl vs) by (intros n fl v vs; induction n as [|n IH]; cbn; congruence).
  assert (H2 : forall n fl, fill (repeat true n ++ fl) [] = repeat 0 n ++ fill fl []) by (intros n fl; induction n as [|n IH]; cbn; congruence).
  induction flags as [|b flags IH]; intros vals; [reflexivity|]. rewrite rep_cons. destruct b; cbn [fill].
  - destruct vals as [|v vals]; rewrite ?rep_cons; [change (repeated k []) with (@nil Q); rewrite H2, <- IH; reflexivity|]. rewrite H1, IH. reflexivity.
  - rewrite H0, IH. reflexivity.
Qed.
Lemma fill_same flags : forall vals vals', Forall2 Qeq vals vals' -> Forall2 Qeq (fill flags vals) (fill flags vals').
Proof. induction flags as [|[] flags IH]; intros vals vals' H; cbn; [constructor| |]; [destruct H; constructor; try reflexivity; auto|constructor; [reflexivity|auto]]. Qed.
Lemma rep_zeros n : repeat 0 (n * k) = repeated k (repeat 0 n).
Proof. induction n as [|n IH]; [reflexivity|]. cbn [repeat]. rewrite rep_cons, <- IH, <- repeat_app. reflexivity. Qed.
End Lists.

(* ----- numbers ----- *)
Lemma qle_same a b c d : a == b -> c == d -> qle a c = qle b d.
Proof. intros H1 H2. destruct (qle_spec a c), (qle_spec b d); try reflexivity; exfalso; lra. Qed.
Lemma qlt_same a b c d : a == b -> c == d -> qlt a c = qlt b d.
Proof. intros H1 H2. destruct (qlt_spec a c), (qlt_spec b d); try reflexivity; exfalso; lra. Qed.
Lemma qeq_same a b c d : a == b -> c == d -> qeq a c = qeq b d.
Proof. intros H1 H2. destruct (qeq_spec a c), (qeq_spec b d); try reflexivity; exfalso; lra. Qed.
Lemma nle_same a b c d : same_num a b -> same_num c d -> nle a c = nle b d.
Proof. destruct a, b; cbn; try contradiction; intros H1; destruct c, d; cbn; try contradiction; intros H2; try reflexivity. apply qle_same; assumption. Qed.
Lemma nlt_same a b c d : same_num a b -> same_num c d -> nlt a c = nlt b d.
Proof. destruct a, b; cbn; try contradiction; intros H1; destruct c, d; cbn; try contradiction; intros H2; try reflexivity. apply qlt_same; assumption. Qed.
Lemma same_num_refl a : same_num a a.
Proof. destruct a; cbn; auto. reflexivity. Qed.
Lemma floor_same a b : a == b -> floor_error a == floor_error b.
Proof. intros H. unfold floor_error, qmax. rewrite (qle_same a b (1#10000) (1#10000) H) by reflexivity. destruct (qle b (1#10000)); [reflexivity|exact H]. Qed.
Lemma floor_pos e : 0 < floor_error e.
Proof. unfold floor_error, qmax. destruct (qle_spec e (1#10000)); lra. Qed.
Lemma compress_len {A B} (X : list A) (Y : list B) ms : length X = length Y -> length (compress X ms) = length (compress Y ms).
Proof. revert Y ms. induction X as [|x X IH]; intros [|z Y] [|b ms] H; cbn in *; try discriminate; try reflexivity. destruct b; cbn; rewrite (IH Y ms) by lia; reflexivity. Qed.
Lemma compress_count {A} (X : list A) ms : length ms = length X -> length (compress X ms) = count_true ms.
Proof. revert ms. induction X as [|x X IH]; intros [|b ms] H; cbn in *; try discriminate; try reflexivity. destruct b; cbn; rewrite (IH ms) by lia; reflexivity. Qed.
Lemma rmap_len {A B} (f : A -> res B) l ys : rmap f l = Ok ys -> length ys = length l.
Proof. revert ys. induction l as [|x l IH]; intros ys; cbn; [intros H; injection H as <-; reflexivity|]. destruct (f x); cbn; [|discriminate]. destruct (rmap f l); cbn; [|discriminate]. intros H; injection H as <-. cbn. f_equal. auto. Qed.

Lemma map_pointwise {A} (f g : A -> Q) l : (forall x, f x == g x) -> Forall2 Qeq (map f l) (map g l).
Proof. intros H. induction l; cbn; constructor; auto. Qed.
(* ----- bounds of the data ----- *)
Lemma map2_idem (f : Q -> Q -> Q) l : (forall a b, f (f a b) b = f a b) -> forall x, map2 f (map2 f x l) l = map2 f x l.
Proof. intros H. induction l as [|b l IH]; intros [|a x]; cbn; try reflexivity. rewrite IH, H. reflexivity. Qed.
Lemma map2_self (f : Q -> Q -> Q) x : (forall a, f a a = a) -> map2 f x x = x.
Proof. intros H. induction x as [|a x IH]; cbn; congruence. Qed.
Lemma qmin_idem a b : qmin (qmin a b) b = qmin a b.
Proof. unfold qmin. destruct (qle_spec a b) as [H|H]; [destruct (qle_spec a b); [reflexivity|exfalso; lra]|]. destruct (qle_spec b b); reflexivity. Qed.
Lemma qmax_idem a b : qmax (qmax a b) b = qmax a b.
Proof. unfold qmax. destruct (qle_spec a b) as [H|H]; [destruct (qle_spec b b); reflexivity|]. destruct (qle_spec a b); [exfalso; lra|reflexivity]. Qed.
Lemma qmin_self a : qmin a a = a.
Proof. unfold qmin. destruct (qle a a); reflexivity. Qed.
Lemma qmax_self a : qmax a a = a.
Proof. unfold qmax. destruct (qle a a); reflexivity. Qed.
Lemma col_min_copies n r : forall x X, map2 qmin x r = x -> col_min x (repeat r n ++ X) = col_min x X.
Proof. induction n as [|n IH]; intros x X H; [reflexivity|]. cbn. rewrite H. apply IH. exact H. Qed.
Lemma col_max_copies n r : forall x X, map2 qmax x r = x -> col_max x (repeat r n ++ X) = col_max x X.
Proof. induction n as [|n IH]; intros x X H; [reflexivity|]. cbn. rewrite H. apply IH. exact H. Qed.
Lemma col_min_rep n X : forall x, col_min x (repeated (S n) X) = col_min x X.
Proof. induction X as [|r X IH]; intros x; [reflexivity|]. rewrite rep_cons. cbn [repeat app col_min]. rewrite col_min_copies by (apply map2_idem; exact qmin_idem). apply IH. Qed.
Lemma col_max_rep n X : forall x, col_max x (repeated (S n) X) = col_max x X.
Proof. induction X as [|r X IH]; intros x; [reflexivity|]. rewrite rep_cons. cbn [repeat app col_max]. rewrite col_max_copies by (apply map2_idem; exact qmax_idem). apply IH. Qed.
Lemma bounds_repeated k X : (0 < k)%nat -> estimate_bounds (repeated k X) = estimate_bounds X.
Proof.
  intros Hk. destruct k as [|n]; [lia|]. destruct X as [|x X]; [reflexivity|]. rewrite rep_cons. cbn [repeat app estimate_bounds].
  rewrite col_min_copies by (apply map2_self; exact qmin_self). rewrite col_max_copies by (apply map2_self; exact qmax_self). rewrite col_min_rep, col_max_rep. reflexivity.
Qed.

(* one rule or several on n samples and on j copies of each, all weights multiplied by c *)
Lemma scatter_one n flags t : scatter n flags [t] = if Nat.eqb (length flags) n then Ok (fill flags (repeat t (count_true flags))) else Raise IndexError.
Proof. unfold scatter. destruct (Nat.eqb (length flags) n); [|reflexivity]. cbn [negb length]. destruct (Nat.eqb_spec 1 (count_true flags)) as [E|E]; [rewrite <- E|]; reflexivity. Qed.
Lemma scatter_all n flags vals : length vals = count_true flags -> scatter n flags vals = if Nat.eqb (length flags) n then Ok (fill flags vals) else Raise IndexError.
Proof. intros H. unfold scatter. rewrite H, Nat.eqb_refl. destruct (Nat.eqb (length flags) n); reflexivity. Qed.
Lemma fill_len flags : forall vals, length (fill flags vals) = length flags.
Proof. induction flags as [|[] flags IH]; intros vals; cbn; [reflexivity|destruct vals; cbn; rewrite IH; reflexivity|rewrite IH; reflexivity]. Qed.
Lemma fill_none flags : existsb (fun b => b) flags = false -> fill flags [] = repeat 0 (length flags).
Proof. induction flags as [|[] flags IH]; cbn; [reflexivity|discriminate|]. intros H. rewrite IH by exact H. reflexivity. Qed.

Definition local_rel (j n : nat) (p p' : list bool * list Q) : Prop :=
  fst p' = repeated j (fst p) /\ Forall2 Qeq (repeated j (snd p)) (snd p') /\ length (fst p) = n /\ exists vals, snd p = fill (fst p) vals.
Section Factor.
Variable c : Q.
Hypothesis Hc : ~ c == 0.
Definition tau_rel (t t' : Q) : Prop := t' == c * t /\ 0 <= t.
(* the sums over the rules, before they are divided *)
Definition scaled (j : nat) (l l' : list Q) : Prop := Forall2 (fun a b => b == c * a) (repeated j l) l'.
Definition over (n s : Q) : Prop := 0 <= s /\ (s == 0 -> n == 0).
Lemma rep_F2 {A B} (R : A -> B -> Prop) j l l' : Forall2 R l l' -> Forall2 R (repeated j l) (repeated j l').
Proof. induction 1 as [|a b l l' H1 H2 IH]; [constructor|]. rewrite !rep_cons. apply Forall2_app; [|exact IH]. clear -H1. induction j; cbn; constructor; auto. Qed.
Lemma map2_F2 {A B} (R : A -> B -> Prop) f f' : (forall a b u v, R a u -> R b v -> R (f a b) (f' u v)) -> forall l l' m m', Forall2 R l l' -> Forall2 R m m' -> Forall2 R (map2 f l m) (map2 f' l' m').
Proof. intros H l l' m m' HA. revert m m'. induction HA as [|a u l l' H1 H2 IH]; intros m m' [|b v m0 m0' H3 H4]; cbn; constructor; auto. Qed.
Lemma zeros_F2 (R : Q -> Q -> Prop) n : R 0 0 -> Forall2 R (repeat 0 n) (repeat 0 n).
Proof. intros H. induction n; cbn; constructor; auto. Qed.
Lemma fill_F2 (R : Q -> Q -> Prop) flags : R 0 0 -> forall l l', Forall2 R l l' -> Forall2 R (fill flags l) (fill flags l').
Proof. intros H0. induction flags as [|[] flags IH]; intros l l' H; cbn; [constructor| |constructor; auto]. destruct H; constructor; auto. Qed.
Lemma rep_repeat {A} (x : A) j n : repeated j (repeat x n) = repeat x (n * j).
Proof. induction n as [|n IH]; [reflexivity|]. cbn [repeat]. rewrite rep_cons, IH, <- repeat_app. reflexivity. Qed.
Lemma scaled_sum j n rows rows' : Forall2 (scaled j) rows rows' -> scaled j (vsum n rows) (vsum (n * j) rows').
Proof.
  induction 1 as [|a b rows rows' H1 H2 IH]; cbn [vsum fold_right].
  - unfold scaled. rewrite rep_repeat. apply zeros_F2. ring.
  - unfold scaled in *. rewrite <- rep_map2. apply map2_F2; [|exact H1|exact IH]. intros p q u v -> ->. ring.
Qed.
Lemma over_sum n rows taus : Forall2 (Forall2 over) rows taus -> Forall2 over (vsum n rows) (vsum n taus).
Proof.
  induction 1 as [|a b rows taus H1 H2 IH]; cbn [vsum fold_right]; [apply zeros_F2; split; [lra|reflexivity]|]. apply map2_F2; [|exact H1|exact IH].
  intros p q u v [A1 A2] [B1 B2]. split; [lra|]. intros E. assert (u == 0) by lra. assert (v == 0) by lra. rewrite A2, B2 by assumption. ring.
Qed.
Lemma row_scaled j row row' t t' : Forall2 Qeq (repeated j row) row' -> tau_rel t t' -> scaled j (map (fun v => v * t) row) (map (fun v => v * t') row').
Proof. intros H [E _]. unfold scaled. rewrite <- rep_map. induction H as [|a b l l' H1 H2 IH]; cbn; constructor; [|exact IH]. rewrite E, H1. ring. Qed.
Lemma tau_scaled j f t t' : tau_rel t t' -> scaled j (fill f (repeat t (count_true f))) (fill (repeated j f) (repeat t' (count_true (repeated j f)))).
Proof. intros [E _]. unfold scaled. rewrite <- rep_fill, rep_repeat, rep_count. apply fill_F2; [ring|]. induction (count_true f * j)%nat; cbn; constructor; auto. Qed.
Lemma fill_over t : 0 <= t -> forall f vals, Forall2 over (map (fun v => v * t) (fill f vals)) (fill f (repeat t (count_true f))).
Proof.
  intros Ht. induction f as [|[] f IH]; intros vals; cbn; [constructor| |].
  - destruct vals; cbn; constructor; auto; (split; [exact Ht|intros ->; ring]).
  - constructor; auto. split; [lra|intros; ring].
Qed.
Lemma quotients (A B N S : list Q) : Forall2 over A B -> Forall2 (fun a b => b == c * a) A N -> Forall2 (fun a b => b == c * a) B S ->
  Forall2 Qeq (map2 Qdiv A (map (fun s => if qeq s 0 then 1 else s) B)) (map2 Qdiv N (map (fun s => if qeq s 0 then 1 else s) S)).
Proof.
  intros HO. revert N S. induction HO as [|a b A B [H1 H2] HO IH]; intros N S HN HS; inversion HN as [|a0 n A0 N0 E1 HN0]; subst; inversion HS as [|b0 s B0 S0 E2 HS0]; subst; cbn [map map2]; constructor; [|apply IH; assumption].
  destruct (qeq_spec b 0) as [E|E], (qeq_spec s 0) as [F|F].
  - rewrite E1, (H2 E). field.
  - exfalso. apply F. rewrite E2, E. ring.
  - exfalso. rewrite E2 in F. apply Qmult_integral in F. destruct F; auto.
  - rewrite E1, E2. field. split; [exact E|exact Hc].
Qed.
Lemma mix_core L mx mx' X rs rs' cache j :
  alike_res (Forall2 (local_rel j (length X))) (rmap (local_pred L X cache) rs) (rmap (local_pred L (repeated j X) cache) rs') ->
  alike_res (Forall2 tau_rel) (rmap (tau L mx (row_len X)) rs) (rmap (tau L mx' (row_len (repeated j X))) rs') ->
  alike_res (fun p p' => Forall2 Qeq (repeated j p) p') (mix L mx X rs cache) (mix L mx' (repeated j X) rs' cache).
Proof.
  intros H1 H2. unfold mix.
  destruct (rmap (local_pred L X cache) rs) as [lps|e], (rmap (local_pred L (repeated j X) cache) rs') as [lps'|e']; cbn [alike_res] in H1; try contradiction; cbn [rbind]; [|exact H1].
  destruct (rmap (tau L mx (row_len X)) rs) as [ts|e], (rmap (tau L mx' (row_len (repeated j X))) rs') as [ts'|e']; cbn [alike_res] in H2; try contradiction; cbn [rbind]; [|exact H2].
  rewrite rep_len. clear rs rs'.
  assert (HF : rmap (fun lt : list bool * Q => scatter (length X) (fst lt) [snd lt]) (combine (map fst lps) ts) = Ok (map (fun lt : list bool * Q => fill (fst lt) (repeat (snd lt) (count_true (fst lt)))) (combine (map fst lps) ts))
    /\ rmap (fun lt : list bool * Q => scatter (length X * j) (fst lt) [snd lt]) (combine (map fst lps') ts') = Ok (map (fun lt : list bool * Q => fill (fst lt) (repeat (snd lt) (count_true (fst lt)))) (combine (map fst lps') ts'))
    /\ Forall2 (scaled j) (map2 (fun lp t => map (fun v => v * t) (snd lp)) lps ts) (map2 (fun lp t => map (fun v => v * t) (snd lp)) lps' ts')
    /\ Forall2 (scaled j) (map (fun lt : list bool * Q => fill (fst lt) (repeat (snd lt) (count_true (fst lt)))) (combine (map fst lps) ts)) (map (fun lt : list bool * Q => fill (fst lt) (repeat (snd lt) (count_true (fst lt)))) (combine (map fst lps') ts'))
    /\ Forall2 (Forall2 over) (map2 (fun lp t => map (fun v => v * t) (snd lp)) lps ts) (map (fun lt : list bool * Q => fill (fst lt) (repeat (snd lt) (count_true (fst lt)))) (combine (map fst lps) ts))).
  { revert ts ts' H2. induction H1 as [|p p' lps lps' (P1 & P2 & P3 & vals & P4) HP IH]; intros ts ts' H2; [cbn; repeat split; constructor|]. destruct H2 as [|t t' ts ts' Ht H2]; [cbn; repeat split; constructor|].
    destruct (IH ts ts' H2) as (I1 & I2 & I3 & I4 & I5). cbn [map combine rmap map2 fst snd]. rewrite !scatter_one, P1, P3, rep_len, P3, !Nat.eqb_refl, I1, I2. cbn [rbind]. repeat split; auto.
    - constructor; [apply row_scaled; assumption|exact I3].
    - constructor; [apply tau_scaled; assumption|exact I4].
    - constructor; [rewrite P4; apply fill_over; apply Ht|exact I5]. }
  destruct HF as (F1 & F2 & F3 & F4 & F5). rewrite F1, F2. cbn [rbind alike_res].
  apply (scaled_sum j (length X)) in F3. apply (scaled_sum j (length X)) in F4. apply (over_sum (length X)) in F5. rewrite <- rep_map2, <- rep_map. apply quotients; [apply rep_F2; exact F5|exact F3|exact F4].
Qed.
End Factor.

Section Rules.
Variables (k : nat) (L : learner).
Hypothesis Hk : (0 < k)%nat.
Hypothesis HL : weightless k L.
Notation rr := (repeated_rule k L).
Lemma mul_eqb a b : Nat.eqb (a * k) (b * k) = Nat.eqb a b.
Proof. destruct (Nat.eqb_spec a b) as [->|H]; [apply Nat.eqb_refl|]. apply Nat.eqb_neq. intros E. apply H. nia. Qed.
Lemma match_repeated m X : match_call m (repeated k X) = let? ms := match_call m X in Ok (repeated k ms).
Proof. unfold match_call. apply rep_rmap. exact Hk. Qed.
Lemma none_count ms : existsb (fun b => b) ms = false -> count_true ms = 0%nat.
Proof. induction ms as [|[] ms IH]; cbn; auto. discriminate. Qed.
Lemma qofnat0 : qofnat 0 = 0.
Proof. reflexivity. Qed.
Lemma rep_sets_exp n : qofnat (n * k) == qofnat k * qofnat n.
Proof. rewrite qofnat_mul. ring. Qed.
Lemma trained_repeated m ms X y : length ms = length X -> length y = length X ->
  rr (mkRule m (Some (fst (trained L m ms X y))) (Some (snd (trained L m ms X y))))
     (mkRule m (Some (fst (trained L m (repeated k ms) (repeated k X) (repeated k y)))) (Some (snd (trained L m (repeated k ms) (repeated k X) (repeated k y))))).
Proof.
  intros H1 H2. unfold trained. rewrite !rep_compress. cbn [fst snd]. pose proof (compress_len X y ms (eq_sym H2)) as H3. pose proof (compress_count X ms H1) as H4.
  set (X1 := compress X ms) in *. set (y1 := compress y ms) in *.
  assert (HP : Forall2 Qeq (repeated k (map (mpred L (train L X1 y1)) X1)) (map (mpred L (train L (repeated k X1) (repeated k y1))) (repeated k X1))).
  { rewrite <- rep_map. apply map_pointwise. intros x. symmetry. apply (wl_model _ _ HL). exact H3. }
  assert (HE : floor_error (mse y1 (map (mpred L (train L X1 y1)) X1)) == floor_error (mse (repeated k y1) (map (mpred L (train L (repeated k X1) (repeated k y1))) (repeated k X1)))).
  { apply floor_same. symmetry. apply mse_repeated; assumption. }
  constructor; cbn [cond rmodel att paired].
  - reflexivity.
  - intros x. apply (wl_model _ _ HL). exact H3.
  - constructor; cbn [is_fitted error M_Rule.fitness experience M_Rule.pred match_set]; auto.
    + apply (wl_fitness _ _ HL). exact HE.
    + rewrite rep_len. apply rep_sets_exp.
  - intros t E. injection E as <-. constructor; cbn [error experience M_Rule.pred match_set].
    + rewrite map_length. exact H4.
    + rewrite H4. reflexivity.
    + right. eexists. split; [reflexivity|apply floor_pos].
Qed.
Lemma fitted_repeated m X y : alike_res rr (fitted m X y) (fitted m (repeated k X) (repeated k y)).
Proof.
  unfold fitted, rule_fit, fresh_rule. cbn [cond rmodel att]. rewrite match_repeated. destruct (match_call m X) as [ms|e] eqn:EM; cbn [rbind]; [|reflexivity].
  rewrite rep_exists by exact Hk. destruct (existsb (fun b => b) ms) eqn:EE; cbn [negb].
  - rewrite !rep_len, mul_eqb. destruct (Nat.eqb_spec (length y) (length X)) as [E|E]; [|reflexivity].
    pose proof (trained_repeated m ms X y (rmap_len _ _ _ EM) E) as HT. destruct (trained L m ms X y) as [mdl t], (trained L m (repeated k ms) (repeated k X) (repeated k y)) as [mdl' t']. exact HT.
  - cbn. constructor; cbn [cond rmodel att paired]; auto.
    + constructor; cbn; auto. ring.
    + intros t E. injection E as <-. pose proof (none_count ms EE) as HC. constructor; cbn; rewrite ?HC; auto.
Qed.

(* ----- acceptance ----- *)
Lemma ndiv_same s n b : 0 <= s -> same_num (ndiv (Fin s) (Fin (qofnat n * b))) (ndiv (Fin (qofnat k * s)) (Fin (qofnat (n * k) * b))).
Proof.
  intros Hs. pose proof (k_pos k Hk) as HK. unfold ndiv. rewrite (qeq_same (qofnat (n * k) * b) (qofnat k * (qofnat n * b)) 0 0) by (rewrite ?qofnat_mul; ring).
  assert (E0 : forall q, qeq (qofnat k * q) 0 = qeq q 0).
  { intros q. destruct (qeq_spec q 0) as [E|E], (qeq_spec (qofnat k * q) 0) as [F|F]; try reflexivity; exfalso; [apply F; rewrite E; ring|]. apply Qmult_integral in F. destruct F as [F|F]; [lra|auto]. }
  rewrite !E0. destruct (qeq_spec (qofnat n * b) 0) as [E|E].
  - destruct (qeq_spec s 0) as [F|F]; [exact I|]. assert (0 < s) by lra. assert (0 < qofnat k * s) by nra. destruct (qlt_spec 0 s), (qlt_spec 0 (qofnat k * s)); try exact I; exfalso; lra.
  - cbn. assert (E1 : qofnat (n * k) * b == (qofnat n * b) * qofnat k) by (rewrite qofnat_mul; ring). rewrite E1. symmetry. apply div_both. exact Hk.
Qed.
Lemma squares_pos l : 0 <= qsum (map (fun v => v * v) l).
Proof. induction l as [|x l IH]; [discriminate|]. change (0 <= x * x + qsum (map (fun v => v * v) l)). nra. Qed.
Lemma accept_repeated ac r r' y : rr r r' -> accept ac r' (repeated k y) = accept ac r y.
Proof.
  intros HR. unfold accept, get_att. pose proof (rp_atts _ _ _ _ HR) as A. pose proof (rp_proper _ _ _ _ HR) as P. destruct (att r) as [t|], (att r') as [t'|]; cbn in A; try contradiction; [|reflexivity]. specialize (P t eq_refl). cbn [of_option rbind]. destruct ac as [m|beta].
  - f_equal. apply nle_same; [|apply same_num_refl]. pose proof (rt_error _ _ _ A). destruct (error t), (error t'); cbn in *; auto. symmetry. assumption.
  - assert (E1 : qlt (experience t') 1 = qlt (experience t) 1).
    { rewrite (qlt_same (experience t') (qofnat (count_true (match_set t) * k)) 1 1); [|rewrite (rt_experience _ _ _ A), (pa_experience _ P), rep_sets_exp; reflexivity|reflexivity]. rewrite (pa_experience _ P). unfold qofnat. change 1 with (inject_Z 1).
      destruct (qlt_spec (inject_Z (Z.of_nat (count_true (match_set t) * k))) (inject_Z 1)) as [H|H], (qlt_spec (inject_Z (Z.of_nat (count_true (match_set t)))) (inject_Z 1)) as [F|F]; try reflexivity; exfalso; rewrite ?Nat2Z.inj_mul in *.
      - rewrite <- Zlt_Qlt in H. rewrite <- Zle_Qle in F. nia.
      - rewrite <- Zle_Qle in H. rewrite <- Zlt_Qlt in F. nia. }
    rewrite E1, (rt_match _ _ _ A), !rep_len, mul_eqb. destruct (qlt (experience t) 1); [reflexivity|]. destruct (Nat.eqb _ _); cbn [negb]; [|reflexivity]. f_equal. rewrite rep_compress, rep_map, rep_len.
    apply nle_same; [pose proof (rt_error _ _ _ A); destruct (error t), (error t'); cbn in *; auto; symmetry; assumption|].
    set (ly := compress y (match_set t)). pose proof (ndiv_same (qsum (map (fun v => v * v) ly)) (length ly) beta (squares_pos ly)) as HN.
    assert (HN2 : same_num (ndiv (Fin (qofnat k * qsum (map (fun v => v * v) ly))) (Fin (qofnat (length ly * k) * beta))) (ndiv (Fin (qsum (repeated k (map (fun v => v * v) ly)))) (Fin (qofnat (length ly * k) * beta)))).
    { unfold ndiv. pose proof (rep_qsum k (map (fun v => v * v) ly)) as ES. rewrite (qeq_same _ _ 0 0 ES), (qlt_same 0 0 _ _ (Qeq_refl 0) ES) by reflexivity. destruct (qeq (qofnat (length ly * k) * beta) 0); [apply same_num_refl|]. cbn. rewrite ES. reflexivity. }
    clear -HN HN2. destruct (ndiv (Fin (qsum (map _ ly))) _), (ndiv (Fin (qofnat k * _)) _), (ndiv (Fin (qsum (repeated k _))) _); cbn in *; try contradiction; auto. rewrite <- HN2, <- HN. reflexivity.
Qed.

(* ----- prediction ----- *)
Lemma fair_num (r r' : rule L) : rr r r' -> same_num (fit_or_nan L r) (fit_or_nan L r').
Proof. intros HR. unfold fit_or_nan. pose proof (rp_atts _ _ _ _ HR) as A. destruct (att r), (att r'); cbn in A; try contradiction; [apply A|exact I]. Qed.
Lemma filter_repeated f rs rs' : match f with RouletteWheel _ => False | _ => True end -> Forall2 rr rs rs' -> alike (Forall2 rr) (apply_filter L f rs) (apply_filter L f rs').
Proof.
  intros Hf H. destruct f as [|n|n|n]; intros g; cbn [apply_filter].
  - auto.
  - assert (HA : alike_res (fun _ _ => True) (rmap (fitness_of L) rs) (rmap (fitness_of L) rs')).
    { clear -H. induction H as [|r r' rs rs' Hr HR IH]; cbn [rmap]; [exact I|]. unfold fitness_of at 1 3, get_att. pose proof (rp_atts _ _ _ _ Hr) as A. destruct (att r), (att r'); cbn in A; try contradiction; [|reflexivity]. cbn [of_option rbind].
      destruct (rmap (fitness_of L) rs), (rmap (fitness_of L) rs'); cbn in *; try contradiction; auto. }
    destruct (rmap (fitness_of L) rs) as [fs|e], (rmap (fitness_of L) rs') as [fs'|e']; cbn in HA; try contradiction; cbn [rbind]; [|auto]. split; [reflexivity|]. unfold last_n.
    assert (HS : Forall2 rr (PyList.sort (fun p q => nlt (fit_or_nan L p) (fit_or_nan L q)) rs) (PyList.sort (fun p q => nlt (fit_or_nan L p) (fit_or_nan L q)) rs')).
    { apply sort_same; [|exact H]. intros p q p' q' Hp Hq. apply nlt_same; apply fair_num; assumption. }
    rewrite (L_List.Forall2_len _ _ _ HS). destruct (Nat.eqb n 0); [exact HS|]. apply skipn_same. exact HS.
  - rewrite (L_List.Forall2_len _ _ _ H). apply sample_alike. exact H.
  - contradiction.
Qed.
Lemma local_cached X r r' : rr r r' -> alike_res (local_rel k (length X)) (local_pred L X true r) (local_pred L (repeated k X) true r').
Proof.
  intros HR. unfold local_pred, get_att. pose proof (rp_atts _ _ _ _ HR) as A. pose proof (rp_proper _ _ _ _ HR) as P. destruct (att r) as [t|], (att r') as [t'|]; cbn in A; try contradiction; [|reflexivity]. specialize (P t eq_refl). cbn [of_option rbind].
  rewrite (scatter_all _ _ _ (pa_pred _ P)), scatter_all.
  - rewrite (rt_match _ _ _ A), !rep_len, mul_eqb. destruct (Nat.eqb_spec (length (match_set t)) (length X)) as [E|E]; [|reflexivity]. cbn [rbind alike_res]. repeat split; auto.
    + cbn [fst snd]. rewrite <- rep_fill. apply fill_same. apply A.
    + eexists. reflexivity.
  - rewrite (rt_match _ _ _ A), rep_count, <- (pa_pred _ P), <- rep_len. symmetry. apply (L_List.Forall2_len _ _ _ (rt_pred _ _ _ A)).
Qed.
Lemma local_fresh j X r r' : (0 < j)%nat -> rr r r' -> alike_res (local_rel j (length X)) (local_pred L X false r) (local_pred L (repeated j X) false r').
Proof.
  intros Hj HR. unfold local_pred. rewrite (rp_cond _ _ _ _ HR). assert (EM : match_call (cond r) (repeated j X) = let? ms := match_call (cond r) X in Ok (repeated j ms)) by (unfold match_call; apply rep_rmap; exact Hj). rewrite EM.
  destruct (match_call (cond r) X) as [ms|e] eqn:E; cbn [rbind]; [|reflexivity]. apply rmap_len in E. rewrite rep_exists by exact Hj. destruct (existsb (fun b => b) ms) eqn:EE.
  - unfold rule_predict. pose proof (rp_model _ _ _ _ HR) as HM. destruct (rmodel r) as [p|], (rmodel r') as [p'|]; cbn in HM; try contradiction; [|reflexivity]. cbn [rbind].
    rewrite scatter_all by (rewrite map_length; apply compress_count; exact E). rewrite scatter_all by (rewrite map_length, rep_compress, rep_len, rep_count, compress_count by exact E; reflexivity).
    rewrite !rep_len. assert (E2 : Nat.eqb (length ms * j) (length X * j) = true) by (rewrite E; apply Nat.eqb_refl). rewrite E2. rewrite E, Nat.eqb_refl. cbn [rbind alike_res]. repeat split; auto.
    + cbn [fst snd]. rewrite <- rep_fill, rep_compress, rep_map. apply fill_same.
      assert (HQ : forall l l', Forall2 Qeq l l' -> Forall2 Qeq (repeated j l) (repeated j l')).
      { induction 1 as [|a b l l' H1 H2 IH]; [constructor|]. rewrite !rep_cons. apply Forall2_app; [|exact IH]. clear -H1. induction j; cbn; constructor; auto. }
      apply HQ. apply map_pointwise. intros x. symmetry. apply HM.
    + eexists. reflexivity.
  - cbn [rbind alike_res]. repeat split; auto.
    + cbn [fst snd]. rewrite rep_len, rep_zeros. apply Forall2_Qeq_refl.
    + exists []. cbn. rewrite fill_none by exact EE. rewrite E. reflexivity.
Qed.
Lemma tau_repeated mx d d' r r' : plain_mixing mx -> rr r r' -> alike_res (tau_rel (qofnat k)) (tau L mx d r) (tau L mx d' r').
Proof.
  intros (_ & HE & HW) HR. unfold tau, get_att. rewrite HE. cbn [calc_exp]. pose proof (rp_atts _ _ _ _ HR) as A. pose proof (rp_proper _ _ _ _ HR) as P. destruct (att r) as [t|], (att r') as [t'|]; cbn in A; try contradiction; [|reflexivity]. specialize (P t eq_refl). cbn [of_option rbind].
  pose proof (rt_error _ _ _ A) as ER. pose proof (rt_experience _ _ _ A) as EX.
  assert (H0 : 0 <= experience t * mweight mx). { rewrite (pa_experience _ P). apply Qmult_le_0_compat; [|exact HW]. unfold qofnat. change 0 with (inject_Z 0). rewrite <- Zle_Qle. lia. }
  destruct (pa_error _ P) as [E|(e & E & Hp)]; rewrite E in *; destruct (error t') as [e'| | |]; cbn in ER; try contradiction; cbn [rbind].
  - split; [rewrite EX; ring|]. lra.
  - rewrite (qeq_same e' e 0 0) by (lra || reflexivity). destruct (qeq_spec e 0) as [F|F]; [exfalso; lra|]. cbn. split.
    + rewrite EX, <- ER. field. lra.
    + apply Qmult_le_0_compat; [|exact H0]. apply Qle_shift_div_l; lra.
Qed.
Lemma mix_repeated mx X rs rs' cache j : plain_mixing mx ->
  (forall r r', rr r r' -> alike_res (local_rel j (length X)) (local_pred L X cache r) (local_pred L (repeated j X) cache r')) ->
  Forall2 rr rs rs' -> alike_res (fun p p' => Forall2 Qeq (repeated j p) p') (mix L mx X rs cache) (mix L mx (repeated j X) rs' cache).
Proof.
  intros HM HL2 HR. apply (mix_core (qofnat k) (Qnot_eq_sym _ _ (Qlt_not_eq _ _ (k_pos k Hk)))); [exact (alike_rmap _ _ _ _ _ _ HL2 HR)|].
  exact (alike_rmap rr (tau_rel (qofnat k)) (tau L mx (row_len X)) (tau L mx (row_len (repeated j X))) rs rs' (fun r r' H => tau_repeated mx _ _ r r' HM H) HR).
Qed.
Lemma sub_repeated bits p p' : Forall2 rr p p' -> alike_res (Forall2 rr) (subpopulation L bits p) (subpopulation L bits p').
Proof. intros H. unfold subpopulation. rewrite (L_List.Forall2_len _ _ _ H). destruct (Nat.eqb _ _); cbn; [apply compress_same; exact H|reflexivity]. Qed.
Lemma predict_repeated mx bits p p' X cache j : plain_mixing mx -> (0 < j)%nat -> (cache = true -> j = k) -> Forall2 rr p p' ->
  alike (fun v v' => Forall2 Qeq (repeated j v) v') (sol_predict L mx bits p X cache) (sol_predict L mx bits p' (repeated j X) cache).
Proof.
  intros HM Hj HC HP g. unfold sol_predict. pose proof (sub_repeated bits p p' HP) as HS. destruct (subpopulation L bits p) as [rs|e], (subpopulation L bits p') as [rs'|e']; cbn in HS; try contradiction; [|auto].
  unfold mixing_call. pose proof (filter_repeated (mfilter mx) rs rs' (proj1 HM) HS g) as HF. destruct HS as [|r r' rs rs' H HR].
  - split; [reflexivity|]. rewrite rep_len, rep_zeros. apply Forall2_Qeq_refl.
  - destruct (apply_filter L _ _ g) as [[o|e] g1], (apply_filter L _ (r' :: rs') g) as [[o'|e'] g2]; try contradiction; destruct HF as [-> HF]; [|auto].
    assert (HX : alike_res (fun v v' => Forall2 Qeq (repeated j v) v') (mix L mx X o cache) (mix L mx (repeated j X) o' cache)).
    { apply mix_repeated; [exact HM| |exact HF]. intros s s' Hs. destruct cache; [rewrite (HC eq_refl); apply local_cached; exact Hs|apply local_fresh; assumption]. }
    destruct (mix L mx X o cache), (mix L mx (repeated j X) o' cache); cbn [alike_res] in HX; try contradiction; auto.
Qed.
Lemma rep_one {A} (l : list A) : repeated 1 l = l.
Proof. induction l as [|x l IH]; [reflexivity|]. rewrite rep_cons, IH. reflexivity. Qed.
Lemma predict_once mx bits p p' Z : plain_mixing mx -> Forall2 rr p p' -> alike (Forall2 Qeq) (sol_predict L mx bits p Z false) (sol_predict L mx bits p' Z false).
Proof.
  intros HM HP g. pose proof (predict_repeated mx bits p p' Z false 1 HM) as H. rewrite rep_one in H. specialize (H ltac:(lia) ltac:(discriminate) HP g). destruct (sol_predict L mx bits p Z false g) as [[v|e] g1], (sol_predict L mx bits p' Z false g) as [[v'|e'] g2]; try contradiction; [|exact H]. rewrite rep_one in H. exact H.
Qed.
Lemma measure_repeated mx f bits p p' X y : plain_mixing mx -> (forall e e' c n, e == e' -> same_num (f e c n) (f e' c n)) -> Forall2 rr p p' ->
  alike same_measures (sol_fit L mx f bits p X y) (sol_fit L mx f bits p' (repeated k X) (repeated k y)).
Proof.
  intros HM Hf HP g. unfold sol_fit. pose proof (predict_repeated mx bits p p' X true k HM Hk (fun _ => eq_refl) HP g) as H. destruct (sol_predict L mx bits p X true g) as [[v|e] g1], (sol_predict L mx bits p' (repeated k X) true g) as [[v'|e'] g2]; try contradiction; destruct H as [-> H]; [|auto].
  rewrite <- (L_List.Forall2_len _ _ _ H), !rep_len, mul_eqb. assert (E0 : Nat.eqb (length y * k) 0 = Nat.eqb (length y) 0) by (rewrite <- (mul_eqb (length y) 0); reflexivity). rewrite E0. destruct (_ || _)%bool; [auto|]. split; [reflexivity|].
  assert (HE : floor_error (mse y v) == floor_error (mse (repeated k y) v')) by (apply floor_same; symmetry; apply mse_repeated; assumption). constructor; cbn; auto. symmetry. exact HE.
Qed.

(* ----- places for new rules ----- *)
Lemma nth_repeated {A} (l : list A) d : forall i, nth i (repeated k l) d = nth (i / k) l d.
Proof.
  induction l as [|x l IH]; intros i; [change (repeated k []) with (@nil A); destruct i, (_ / k)%nat; reflexivity|]. rewrite rep_cons. destruct (Nat.ltb_spec i k) as [H|H].
  - rewrite app_nth1 by (rewrite repeat_length; exact H). rewrite Nat.div_small by exact H. rewrite (nth_indep _ d x) by (rewrite repeat_length; exact H). apply nth_repeat.
  - rewrite app_nth2 by (rewrite repeat_length; exact H). rewrite repeat_length, IH. replace (i / k)%nat with (S ((i - k) / k)); [reflexivity|]. replace i with (i - k + 1 * k)%nat at 2 by lia. rewrite Nat.div_add by lia. lia.
Qed.
Lemma seq_repeated n : forall s, map (fun i => i / k)%nat (seq (s * k) (n * k)) = repeated k (seq s n).
Proof.
  induction n as [|n IH]; intros s; [reflexivity|]. cbn [Nat.mul seq]. rewrite seq_app, map_app, rep_cons. f_equal.
  - rewrite (map_ext_in _ (fun _ => s)); [generalize (s * k)%nat; clear; induction k as [|m IH]; intros a; cbn; [reflexivity|rewrite IH; reflexivity]|].
    intros i Hi. apply in_seq in Hi. symmetry. apply (Nat.div_unique i k s (i - s * k)); lia.
  - replace (s * k + k)%nat with (S s * k)%nat by lia. apply IH.
Qed.
Lemma miss_repeated n sets : miss_counts (n * k) (map (repeated k) sets) = repeated k (miss_counts n sets).
Proof.
  unfold miss_counts. rewrite <- (rep_map k (fun i => qofnat (count_true (map (fun ms => negb (nth i ms false)) sets)))). rewrite <- (seq_repeated n 0). cbn [Nat.mul]. rewrite map_map. apply map_ext. intros i. f_equal. f_equal. rewrite map_map. apply map_ext. intros ms. rewrite nth_repeated. reflexivity.
Qed.
Lemma weights_repeated rs rs' : Forall2 rr rs rs' -> matching_weights rs' = let? ws := matching_weights rs in Ok (repeated k ws).
Proof.
  intros H. unfold matching_weights. assert (E : rmap (fun r => let? t := get_att L r in Ok (match_set t)) rs' = let? sets := rmap (fun r => let? t := get_att L r in Ok (match_set t)) rs in Ok (map (repeated k) sets)).
  { induction H as [|r r' rs rs' Hr H IH]; cbn [rmap]; [reflexivity|]. rewrite IH. unfold get_att. pose proof (rp_atts _ _ _ _ Hr) as A. destruct (att r), (att r'); cbn in A; try contradiction; [|reflexivity]. cbn [of_option rbind]. rewrite (rt_match _ _ _ A). destruct (rmap _ rs); reflexivity. }
  rewrite E. destruct (rmap (fun r => let? t := get_att L r in Ok (match_set t)) rs) as [[|s rest]|e]; cbn [rbind map]; try reflexivity.
  assert (E2 : forallb (fun t => Nat.eqb (length t) (length (repeated k s))) (map (repeated k) rest) = forallb (fun t => Nat.eqb (length t) (length s)) rest).
  { clear E. induction rest as [|t rest IH]; cbn [map forallb]; [reflexivity|]. rewrite IH, !rep_len, mul_eqb. reflexivity. }
  rewrite E2. destruct (forallb _ rest); [|reflexivity]. cbn [rbind]. rewrite rep_len. f_equal. apply (miss_repeated (length s) (s :: rest)).
Qed.
Lemma shares_repeated ws ws' : Forall2 Qeq (repeated k ws) ws' -> paired (fun p p' => Forall2 (fun a b => b == a / qofnat k) (repeated k p) p') (probabilities ws) (probabilities ws').
Proof.
  intros H. pose proof (k_pos k Hk) as HK. pose proof (sums_same k ws ws' H) as ES. unfold probabilities. destruct (qeq_spec (qsum ws) 0) as [E|E], (qeq_spec (qsum ws') 0) as [F|F]; cbn [paired]; auto.
  - apply F. rewrite ES, E. ring.
  - rewrite ES in F. apply Qmult_integral in F. destruct F; [lra|auto].
  - rewrite <- (rep_map k (fun w => w / qsum ws)). clear F. revert ES. generalize (qsum ws'). intros s ES. induction H as [|a b l l' H1 H2 IH]; cbn; constructor; [|exact IH]. rewrite ES, H1. field. split; [exact E|lra].
Qed.
Lemma squared_repeated D D' use : plain_mixing (dmix D) -> repeated_problem k L D D' -> alike (fun ws ws' => Forall2 Qeq (repeated k ws) ws') (squared_weights D use) (squared_weights D' use).
Proof.
  intros HM [H1 H2 H3 H4 H5]. unfold squared_weights. rewrite H4, H5, H1, H2. destruct (delite D) as [bits|]; [|apply alike_raise]. rewrite <- (L_List.Forall2_len _ _ _ H3).
  eapply alike_bind; [apply (predict_repeated (dmix D) _ (dpool D) (dpool D') (dX D) false k HM Hk); [discriminate|exact H3]|]. intros p p' HP. rewrite <- (L_List.Forall2_len _ _ _ HP), !rep_len, mul_eqb. destruct (Nat.eqb _ _); [|apply alike_raise]. apply alike_ret.
  rewrite <- rep_map2. apply map2_same; [intros a b c d -> ->; reflexivity|exact HP|apply Forall2_Qeq_refl].
Qed.
Lemma group_repeated D D' use : repeated_problem k L D D' -> alike_res (Forall2 rr) (subgroup D use) (subgroup D' use).
Proof. intros [H1 H2 H3 H4 H5]. unfold subgroup. rewrite H4. destruct (delite D) as [bits|]; [destruct use; [apply sub_repeated|]|]; exact H3. Qed.
End Rules.

(* ----- coefficient of determination ----- *)
Lemma r2_repeated k y p p' : (0 < k)%nat -> (2 <= length y)%nat -> Forall2 Qeq (repeated k p) p' -> alike_res same_num (r2_score y p) (r2_score (repeated k y) p').
Proof.
  intros Hk Hy HP. pose proof (k_pos k Hk) as HK. unfold r2_score. rewrite <- (L_List.Forall2_len _ _ _ HP), !rep_len, (mul_eqb k Hk). destruct (Nat.eqb_spec (length y) (length p)) as [E|E]; cbn [negb]; [|reflexivity].
  assert (E1 : Nat.ltb (length p) 2 = false) by (apply Nat.ltb_ge; lia). assert (E2 : Nat.ltb (length p * k) 2 = false) by (apply Nat.ltb_ge; nia). rewrite E1, E2. cbn [alike_res same_num].
  assert (EM : qsum (repeated k y) / qofnat (length y * k) == qsum y / qofnat (length y)).
  { rewrite rep_qsum, qofnat_mul. apply div_both. exact Hk. }
  set (m := qsum y / qofnat (length y)) in *. set (m' := qsum (repeated k y) / qofnat (length y * k)) in *.
  assert (EN : qsum (map2 (fun a b => (a - b) * (a - b)) (repeated k y) p') == qofnat k * qsum (map2 (fun a b => (a - b) * (a - b)) y p)).
  { rewrite <- (qsum_same (map2 (fun a b => (a - b) * (a - b)) (repeated k y) (repeated k p))); [rewrite rep_map2; apply rep_qsum|]. apply map2_same; [intros a b c d -> ->; reflexivity|apply Forall2_Qeq_refl|exact HP]. }
  assert (ED : qsum (map (fun a => (a - m') * (a - m')) (repeated k y)) == qofnat k * qsum (map (fun a => (a - m) * (a - m)) y)).
  { rewrite <- (qsum_same (map (fun a => (a - m) * (a - m)) (repeated k y))); [rewrite rep_map; apply rep_qsum|]. apply map_pointwise. intros x. rewrite EM. reflexivity. }
  revert EN ED. generalize (qsum (map2 (fun a b => (a - b) * (a - b)) (repeated k y) p')) (qsum (map (fun a => (a - m') * (a - m')) (repeated k y))) (qsum (map2 (fun a b => (a - b) * (a - b)) y p)) (qsum (map (fun a => (a - m) * (a - m)) y)).
  intros n' d' n d EN ED.
  assert (E0 : forall q q', q' == qofnat k * q -> qeq q' 0 = qeq q 0).
  { intros q q' HQ. destruct (qeq_spec q 0) as [F|F], (qeq_spec q' 0) as [G|G]; try reflexivity; exfalso; [apply G; rewrite HQ, F; ring|]. rewrite HQ in G. apply Qmult_integral in G. destruct G; [lra|auto]. }
  rewrite (E0 n n' EN), (E0 d d' ED). destruct (qeq n 0); [reflexivity|]. destruct (qeq_spec d 0) as [F|F]; [reflexivity|]. rewrite EN, ED. field. split; [exact F|lra].
Qed.
