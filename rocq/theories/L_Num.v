(* Facts about PyNum. *)
From Coq Require Export Lqa Setoid.
From Verif Require Import PyNum.

Lemma qle_spec a b : BoolSpec (a <= b) (b < a) (qle a b).
Proof.
  unfold qle. destruct (Qle_bool a b) eqn:E; constructor.
  - apply Qle_bool_iff; exact E.
  - apply Qnot_le_lt. intro H. apply Qle_bool_iff in H. congruence.
Qed.
Lemma qlt_spec a b : BoolSpec (a < b) (b <= a) (qlt a b).
Proof.
  unfold qlt. destruct (Qle_bool b a) eqn:E; simpl; constructor.
  - apply Qle_bool_iff; exact E.
  - apply Qnot_le_lt. intro H. apply Qle_bool_iff in H. congruence.
Qed.
Lemma qeq_spec a b : reflect (a == b) (qeq a b).
Proof.
  unfold qeq. destruct (Qeq_bool a b) eqn:E; constructor.
  - apply Qeq_bool_iff; exact E.
  - intro H. apply Qeq_bool_iff in H. congruence.
Qed.
Lemma qle_iff a b : qle a b = true <-> a <= b.
Proof. destruct (qle_spec a b); split; intros; try congruence; try lra; auto. Qed.
Lemma qlt_iff a b : qlt a b = true <-> a < b.
Proof. destruct (qlt_spec a b); split; intros; try congruence; try lra; auto. Qed.
Lemma qeq_iff a b : qeq a b = true <-> a == b.
Proof. destruct (qeq_spec a b); split; intuition congruence. Qed.
Lemma qle_false a b : qle a b = false <-> b < a.
Proof. destruct (qle_spec a b); split; intros; try congruence; try lra; auto. Qed.
Lemma qlt_false a b : qlt a b = false <-> b <= a.
Proof. destruct (qlt_spec a b); split; intros; try congruence; try lra; auto. Qed.
Lemma qeq_false a b : qeq a b = false <-> ~ a == b.
Proof. destruct (qeq_spec a b); split; intuition congruence. Qed.

(* case analysis on every boolean comparison of rationals in sight *)
Ltac qcase1 :=
  match goal with
  | |- context [qle ?a ?b] => destruct (qle_spec a b)
  | |- context [qlt ?a ?b] => destruct (qlt_spec a b)
  | |- context [qeq ?a ?b] => destruct (qeq_spec a b)
  | H : context [qle ?a ?b] |- _ => destruct (qle_spec a b)
  | H : context [qlt ?a ?b] |- _ => destruct (qlt_spec a b)
  | H : context [qeq ?a ?b] |- _ => destruct (qeq_spec a b)
  end.
Ltac qcases := unfold qclip, qmin, qmax in *; repeat qcase1; try lra.

Lemma qclip_range lo hi x : lo <= hi -> lo <= qclip lo hi x <= hi.
Proof. intros H. qcases. Qed.
Lemma qclip_id lo hi x : lo <= x <= hi -> qclip lo hi x == x.
Proof. intros H. qcases. Qed.
Lemma qclip_mono lo hi x y : x <= y -> qclip lo hi x <= qclip lo hi y.
Proof. intros H. qcases. Qed.

(* ----- num ----- *)
Lemma nle_refl a : is_nan a = false -> nle a a = true.
Proof. destruct a; simpl; intros; try congruence; try reflexivity. apply qle_iff; lra. Qed.
Lemma nlt_irrefl a : nlt a a = false.
Proof. destruct a; simpl; try reflexivity. apply qlt_false; lra. Qed.
Lemma nle_trans a b c : nle a b = true -> nle b c = true -> nle a c = true.
Proof.
  destruct a, b, c; simpl; intros H1 H2; try congruence; try reflexivity.
  apply qle_iff in H1, H2. apply qle_iff; lra.
Qed.
Lemma nlt_trans a b c : nlt a b = true -> nlt b c = true -> nlt a c = true.
Proof.
  destruct a, b, c; simpl; intros H1 H2; try congruence; try reflexivity.
  apply qlt_iff in H1, H2. apply qlt_iff; lra.
Qed.
Lemma nlt_nle a b : nlt a b = true -> nle a b = true.
Proof.
  destruct a, b; simpl; intros H; try congruence; try reflexivity.
  apply qlt_iff in H. apply qle_iff; lra.
Qed.
Lemma nlt_nle_trans a b c : nlt a b = true -> nle b c = true -> nlt a c = true.
Proof.
  destruct a, b, c; simpl; intros H1 H2; try congruence; try reflexivity.
  apply qlt_iff in H1; apply qle_iff in H2. apply qlt_iff; lra.
Qed.
Lemma nle_nlt_trans a b c : nle a b = true -> nlt b c = true -> nlt a c = true.
Proof.
  destruct a, b, c; simpl; intros H1 H2; try congruence; try reflexivity.
  apply qle_iff in H1; apply qlt_iff in H2. apply qlt_iff; lra.
Qed.
Lemma nlt_false_nle a b : is_nan a = false -> is_nan b = false -> nlt a b = false -> nle b a = true.
Proof.
  destruct a, b; simpl; intros N1 N2 H; try congruence; try reflexivity.
  apply qlt_false in H. apply qle_iff; exact H.
Qed.
Lemma nle_false_nlt a b : is_nan a = false -> is_nan b = false -> nle a b = false -> nlt b a = true.
Proof.
  destruct a, b; simpl; intros N1 N2 H; try congruence; try reflexivity.
  apply qle_false in H. apply qlt_iff; exact H.
Qed.
Lemma nle_not_nlt a b : nle a b = true -> nlt b a = false.
Proof.
  destruct a, b; simpl; intros H; try congruence; try reflexivity.
  apply qle_iff in H. apply qlt_false; exact H.
Qed.
Lemma nle_nonnan a b : nle a b = true -> is_nan a = false /\ is_nan b = false.
Proof. destruct a, b; simpl; intros; try congruence; auto. Qed.
Lemma nlt_nonnan a b : nlt a b = true -> is_nan a = false /\ is_nan b = false.
Proof. destruct a, b; simpl; intros; try congruence; auto. Qed.
Lemma nle_total a b : is_nan a = false -> is_nan b = false -> nle a b = true \/ nle b a = true.
Proof.
  intros N1 N2. destruct (nle a b) eqn:E; [left; reflexivity|right].
  apply nlt_nle, nle_false_nlt; assumption.
Qed.

(* ----- sums and products ----- *)
Lemma qsum_app a b : qsum (a ++ b) == qsum a + qsum b.
Proof. induction a as [|x a IH]; simpl; [lra|rewrite IH; lra]. Qed.
Lemma qsum_nonneg l : Forall (fun x => 0 <= x) l -> 0 <= qsum l.
Proof. induction 1; simpl; lra. Qed.
Lemma qprod_nonneg l : Forall (fun x => 0 <= x) l -> 0 <= qprod l.
Proof. induction 1 as [|x l Hx _ IH]; simpl; [lra|]. apply Qmult_le_0_compat; assumption. Qed.
Lemma qofnat_nonneg n : 0 <= qofnat n.
Proof. unfold qofnat. change 0 with (inject_Z 0). rewrite <- Zle_Qle. lia. Qed.
Lemma qofnat_pos n : (0 < n)%nat -> 0 < qofnat n.
Proof. unfold qofnat. change 0 with (inject_Z 0). rewrite <- Zlt_Qlt. lia. Qed.
Lemma qofnat_le a b : (a <= b)%nat <-> qofnat a <= qofnat b.
Proof. unfold qofnat. rewrite <- Zle_Qle. lia. Qed.
Lemma qofnat_lt a b : (a < b)%nat <-> qofnat a < qofnat b.
Proof. unfold qofnat. rewrite <- Zlt_Qlt. lia. Qed.
Lemma qofnat_S n : qofnat (S n) == qofnat n + 1.
Proof. unfold qofnat. rewrite Nat2Z.inj_succ. unfold Z.succ. rewrite inject_Z_plus. reflexivity. Qed.
Lemma qofnat_add a b : qofnat (a + b) == qofnat a + qofnat b.
Proof. unfold qofnat. rewrite Nat2Z.inj_add, inject_Z_plus. reflexivity. Qed.
