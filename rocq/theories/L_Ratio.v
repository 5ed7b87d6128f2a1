(* Numbers multiplied by a positive number: their order and their ratios stay. *)
From Coq Require Import Lia.
From Verif Require Import PyNum PyList PyMon PyRng PyStat L_Num L_List M_Matching M_Rule M_Mixing M_GenomeOps S_Invariance L_Invariance S_Units L_Units S_Order.
From Coq Require Import Lqa.
Local Notation SN := S_Invariance.same_num.

(* ----- weighted choices ----- *)
Lemma lt_value a b c d : a == b -> c == d -> qlt a c = qlt b d.
Proof. intros H1 H2. destruct (qlt a c) eqn:E1, (qlt b d) eqn:E2; try reflexivity; [apply qlt_iff in E1; apply Bool.not_true_iff_false in E2; exfalso; apply E2; apply qlt_iff; lra|apply qlt_iff in E2; apply Bool.not_true_iff_false in E1; exfalso; apply E1; apply qlt_iff; lra]. Qed.
Lemma le_value a b c d : a == b -> c == d -> qle a c = qle b d.
Proof. intros H1 H2. destruct (qle a c) eqn:E1, (qle b d) eqn:E2; try reflexivity; [apply qle_iff in E1; apply Bool.not_true_iff_false in E2; exfalso; apply E2; apply qle_iff; lra|apply qle_iff in E2; apply Bool.not_true_iff_false in E1; exfalso; apply E1; apply qle_iff; lra]. Qed.
Lemma eq_value a b c d : a == b -> c == d -> qeq a c = qeq b d.
Proof. intros H1 H2. destruct (qeq a c) eqn:E1, (qeq b d) eqn:E2; try reflexivity; [apply qeq_iff in E1; apply Bool.not_true_iff_false in E2; exfalso; apply E2; apply qeq_iff; lra|apply qeq_iff in E2; apply Bool.not_true_iff_false in E1; exfalso; apply E1; apply qeq_iff; lra]. Qed.
Lemma search_same w w' : Forall2 Qeq w w' -> forall acc acc' u i, acc == acc' -> search_cdf w acc u i = search_cdf w' acc' u i.
Proof.
  induction 1 as [|p p' w w' Hp HW IH]; intros acc acc' u i Ha; cbn [search_cdf]; [reflexivity|]. assert (E : acc + p == acc' + p') by (rewrite Ha, Hp; reflexivity). rewrite (lt_value u u _ _ (Qeq_refl u) E). destruct (qlt _ _); [reflexivity|apply IH; exact E].
Qed.
Lemma sum_value w w' : Forall2 Qeq w w' -> qsum w == qsum w'.
Proof. unfold qsum. induction 1 as [|x x' w w' Hx HW IH]; cbn [fold_right]; [reflexivity|]. rewrite Hx, IH. reflexivity. Qed.
Lemma nth_either {A B} (R : A -> B -> Prop) l l' x x' : Forall2 R l l' -> R x x' -> forall i, R (nth i l x) (nth i l' x').
Proof. intros H Hx. induction H as [|a b l l' Hab H IH]; intros [|i]; cbn; auto. Qed.
Lemma choices_p_alike {A B} (R : A -> B -> Prop) l l' n w w' : Forall2 R l l' -> Forall2 Qeq w w' -> alike (Forall2 R) (choices_p l n w) (choices_p l' n w').
Proof.
  intros HL H q. unfold choices_p. rewrite <- (L_List.Forall2_len _ _ _ H), <- (L_List.Forall2_len _ _ _ HL). assert (E : weights_ok w = weights_ok w').
  { unfold weights_ok. rewrite (eq_value _ _ 1 1 (sum_value _ _ H) (Qeq_refl 1)). f_equal. clear -H. induction H as [|a b w w' H1 H2 IH]; cbn; [reflexivity|]. rewrite IH, (le_value 0 0 a b (Qeq_refl 0) H1). reflexivity. }
  rewrite E. destruct (_ || _)%bool; [auto|]. pose proof HL as HL0. destruct HL as [|x x' l l' Hx HL]; [auto|]. destruct (draws n q) as [qs q']. split; [reflexivity|]. induction qs as [|u qs IH]; cbn [map]; constructor; [|exact IH].
  rewrite (search_same w w' H 0 0 (u01 u) 0 (Qeq_refl 0)). apply nth_either; assumption.
Qed.
Lemma finites_value w w' : Forall2 SN w w' -> paired (Forall2 Qeq) (finites w) (finites w').
Proof. induction 1 as [|a b w w' H1 H2 IH]; cbn; [constructor|]. destruct a, b; cbn in H1; try contradiction; try exact I. destruct (finites w), (finites w'); cbn in IH; try contradiction; cbn; auto. Qed.
Lemma choices_num_alike {A B} (R : A -> B -> Prop) l l' n w w' : Forall2 R l l' -> Forall2 SN w w' -> alike (Forall2 R) (choices_num l n w) (choices_num l' n w').
Proof.
  intros HL H q. unfold choices_num. pose proof (finites_value _ _ H) as HF. destruct (finites w) as [ws|], (finites w') as [ws'|]; cbn in HF; try contradiction; [apply (choices_p_alike R l l' n ws ws' HL HF q)|]. split; reflexivity.
Qed.

(* ----- multiplication by k ----- *)
Section Scale.
Variable k : Q.
Hypothesis Hk : 0 < k.
(* v' is k times v *)
Definition by_k (v v' : num) : Prop := match v, v' with Fin p, Fin q => q == k * p | PInf, PInf | NInf, NInf | NaN, NaN => True | _, _ => False end.
Lemma by_k_mul v : by_k v (nmul (Fin k) v).
Proof.
  assert (E : qeq k 0 = false) by (apply Bool.not_true_iff_false; intros H; apply qeq_iff in H; lra). assert (E1 : qlt 0 k = true) by (apply qlt_iff; exact Hk).
  destruct v; cbn; unfold nsgn_mul; rewrite ?E, ?E1; cbn; auto; reflexivity.
Qed.
Lemma by_k_zero : by_k (Fin 0) (Fin 0).
Proof. cbn. lra. Qed.
Lemma mul_lt a b : qlt (k * a) (k * b) = qlt a b.
Proof. destruct (qlt a b) eqn:E; [apply qlt_iff in E; apply qlt_iff; nra|]. apply Bool.not_true_iff_false. intros H. apply qlt_iff in H. apply Bool.not_true_iff_false in E. apply E. apply qlt_iff. nra. Qed.
Lemma mul_le a b : qle (k * a) (k * b) = qle a b.
Proof. destruct (qle a b) eqn:E; [apply qle_iff in E; apply qle_iff; nra|]. apply Bool.not_true_iff_false. intros H. apply qle_iff in H. apply Bool.not_true_iff_false in E. apply E. apply qle_iff. nra. Qed.
Lemma by_k_lt a a' b b' : by_k a a' -> by_k b b' -> nlt a' b' = nlt a b.
Proof. destruct a, a'; cbn; try contradiction; intros H1; destruct b, b'; cbn; try contradiction; intros H2; try reflexivity. rewrite (lt_value _ _ _ _ H1 H2). apply mul_lt. Qed.
Lemma by_k_le a a' b b' : by_k a a' -> by_k b b' -> nle a' b' = nle a b.
Proof. destruct a, a'; cbn; try contradiction; intros H1; destruct b, b'; cbn; try contradiction; intros H2; try reflexivity. rewrite (le_value _ _ _ _ H1 H2). apply mul_le. Qed.
Lemma by_k_nought a a' : by_k a a' -> neqb a' (Fin 0) = neqb a (Fin 0).
Proof.
  destruct a as [q| | |], a' as [q'| | |]; cbn; try contradiction; intros H; try reflexivity. destruct (qeq q 0) eqn:E; [apply qeq_iff in E; apply qeq_iff; rewrite H, E; ring|]. apply Bool.not_true_iff_false. intros H0. apply qeq_iff in H0. apply Bool.not_true_iff_false in E. apply E. apply qeq_iff. nra.
Qed.
Lemma by_k_inf a a' : by_k a a' -> neqb a' NInf = neqb a NInf.
Proof. destruct a, a'; cbn; try contradiction; reflexivity. Qed.
Lemma by_k_add a a' b b' : by_k a a' -> by_k b b' -> by_k (nadd a b) (nadd a' b').
Proof. destruct a, a'; cbn; try contradiction; intros H1; destruct b, b'; cbn; try contradiction; intros H2; auto. rewrite H1, H2. ring. Qed.
Lemma by_k_sum l l' : Forall2 by_k l l' -> by_k (nsum l) (nsum l').
Proof.
  intros H. unfold nsum. assert (G : forall a b, by_k a b -> by_k (fold_left nadd l a) (fold_left nadd l' b)); [|apply G, by_k_zero]. induction H as [|x x' l l' Hx HL IH]; intros a b Hab; cbn [fold_left]; [exact Hab|]. apply IH, by_k_add; assumption.
Qed.
Lemma mul_sign a : qlt (k * a) 0 = qlt a 0 /\ qlt 0 (k * a) = qlt 0 a /\ qeq (k * a) 0 = qeq a 0.
Proof.
  split; [rewrite <- (mul_lt a 0); apply lt_value; [reflexivity|ring]|]. split; [rewrite <- (mul_lt 0 a); apply lt_value; [ring|reflexivity]|]. exact (by_k_nought (Fin a) (Fin (k * a)) (Qeq_refl _)).
Qed.
(* the ratios stay *)
Lemma by_k_ratio a a' b b' : by_k a a' -> by_k b b' -> SN (ndiv a b) (ndiv a' b').
Proof.
  destruct a as [p| | |], a' as [p'| | |]; cbn [by_k]; try contradiction; intros H1; destruct b as [q| | |], b' as [q'| | |]; cbn [by_k]; try contradiction; intros H2; cbn [ndiv]; try exact I; try reflexivity.
  - destruct (mul_sign p) as (P1 & P2 & P3), (mul_sign q) as (Q1 & Q2 & Q3). rewrite (eq_value q' (k * q) 0 0 H2 (Qeq_refl 0)), Q3, (eq_value p' (k * p) 0 0 H1 (Qeq_refl 0)), P3, (lt_value 0 0 p' (k * p) (Qeq_refl 0) H1), P2.
    destruct (qeq q 0) eqn:E; [destruct (qeq p 0); [exact I|]; destruct (qlt 0 p); exact I|]. cbn. apply Bool.not_true_iff_false in E. rewrite H1, H2. field. split; [|lra]. intros H. apply E, qeq_iff. exact H.
  - destruct (mul_sign q) as (Q1 & _). rewrite (lt_value q' (k * q) 0 0 H2 (Qeq_refl 0)), Q1. destruct (qlt q 0); exact I.
  - destruct (mul_sign q) as (Q1 & _). rewrite (lt_value q' (k * q) 0 0 H2 (Qeq_refl 0)), Q1. destruct (qlt q 0); exact I.
Qed.
(* division by the same number *)
Lemma by_k_part a a' q : 0 < q -> by_k a a' -> by_k (ndiv a (Fin q)) (ndiv a' (Fin q)).
Proof.
  intros Hq. assert (E : qeq q 0 = false) by (apply Bool.not_true_iff_false; intros H; apply qeq_iff in H; lra). assert (E1 : qlt q 0 = false) by (apply Bool.not_true_iff_false; intros H; apply qlt_iff in H; lra).
  destruct a, a'; cbn; try contradiction; rewrite ?E, ?E1; cbn; auto. intros ->. field. lra.
Qed.
Lemma shares l l' : Forall2 by_k l l' -> Forall2 SN (map (fun v => ndiv v (nsum l)) l) (map (fun v => ndiv v (nsum l')) l').
Proof. intros H. pose proof (by_k_sum _ _ H) as HS. revert HS. generalize (nsum l), (nsum l'). intros t t' HS. induction H as [|x x' l l' Hx HL IH]; cbn [map]; constructor; [apply by_k_ratio; assumption|exact IH]. Qed.
Lemma by_k_all l : Forall2 by_k l (map (nmul (Fin k)) l).
Proof. induction l; cbn [map]; constructor; auto. apply by_k_mul. Qed.
End Scale.
Lemma proportional_rising h : proportional h -> rising h /\ h NInf = NInf.
Proof.
  intros (k & Hk & Hh). split.
  - intros a b. rewrite !Hh. split; [apply (by_k_lt k Hk); apply by_k_mul; exact Hk|apply (by_k_le k Hk); apply by_k_mul; exact Hk].
  - rewrite Hh. pose proof (by_k_mul k Hk NInf) as H. destruct (nmul (Fin k) NInf); cbn in H; try contradiction. reflexivity.
Qed.
