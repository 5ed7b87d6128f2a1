(* Two runs in step. *)
From Verif Require Import PyNum PyList PyMon S_Units L_Units.

Lemma tan_ret {S S' A B} (P : S -> S' -> Prop) (R : A -> B -> Prop) x y : R x y -> tandem P R (ret x) (ret y).
Proof. intros H s s' HP. cbn. auto. Qed.
Lemma tan_raise {S S' A B} (P : S -> S' -> Prop) (R : A -> B -> Prop) e : tandem P R (raise e) (raise e).
Proof. intros s s' HP. cbn. auto. Qed.
Lemma tan_bind {S S' A A' B B'} (P : S -> S' -> Prop) (R : A -> A' -> Prop) (Q : B -> B' -> Prop) (m : St S A) (m' : St S' A') k k' :
  tandem P R m m' -> (forall x y, R x y -> tandem P Q (k x) (k' y)) -> tandem P Q (bind m k) (bind m' k').
Proof. intros HM HK s s' HP. specialize (HM s s' HP). unfold bind. destruct (m s) as [[x|e] s1], (m' s') as [[x'|e'] s2]; try contradiction; destruct HM as [HP' H]; [apply HK; assumption|auto]. Qed.
Lemma tan_lift {S S' A B} (P : S -> S' -> Prop) (R : A -> B -> Prop) r r' : alike_res R r r' -> tandem P R (lift r) (lift r').
Proof. intros H s s' HP. unfold lift. destruct r, r'; cbn in *; auto. Qed.
Lemma tan_get {S S'} (P : S -> S' -> Prop) : tandem P P get get.
Proof. intros s s' HP. cbn. auto. Qed.
Lemma both_res {A B} (R : A -> B -> Prop) e o o' : paired R o o' -> alike_res R (of_option e o) (of_option e o').
Proof. destruct o, o'; cbn; auto. Qed.
Lemma tan_mmap {S S' A A' B B'} (P : S -> S' -> Prop) (Q : A -> A' -> Prop) (R : B -> B' -> Prop) (f : A -> St S B) (f' : A' -> St S' B') l l' :
  (forall x x', Q x x' -> tandem P R (f x) (f' x')) -> Forall2 Q l l' -> tandem P (Forall2 R) (mmap f l) (mmap f' l').
Proof.
  intros Hf. induction 1 as [|x x' l l' Hx HF IH]; cbn [mmap]; [apply tan_ret; constructor|]. eapply tan_bind; [apply Hf; exact Hx|]. intros b b' Hb. eapply tan_bind; [exact IH|]. intros bs bs' Hbs. apply tan_ret. constructor; assumption.
Qed.
Lemma tan_weak {S S' A B} (P : S -> S' -> Prop) (R Q : A -> B -> Prop) (m : St S A) (m' : St S' B) : (forall x y, R x y -> Q x y) -> tandem P R m m' -> tandem P Q m m'.
Proof. intros H HM s s' HP. specialize (HM s s' HP). destruct (m s) as [[x|e] s1], (m' s') as [[x'|e'] s2]; try contradiction; destruct HM; auto. Qed.
Lemma tan_each {S S' A B} (P : S -> S' -> Prop) (f : A -> St S B) (f' : A -> St S' B) l : (forall x, tandem P eq (f x) (f' x)) -> tandem P eq (mmap f l) (mmap f' l).
Proof. intros Hf. eapply tan_weak; [apply eq_Forall2|]. apply (tan_mmap P eq eq); [intros x x' <-; apply Hf|apply Forall2_eq]. Qed.
Lemma tan_iter {S S' A} (P : S -> S' -> Prop) (f : A -> St S unit) (f' : A -> St S' unit) l : (forall x, tandem P eq (f x) (f' x)) -> tandem P eq (miter f l) (miter f' l).
Proof. intros H. induction l as [|x l IH]; cbn [miter]; [apply tan_ret; reflexivity|]. eapply tan_bind; [apply H|]. intros _ _ _. exact IH. Qed.
Lemma tan_value {S S' A} (P : S -> S' -> Prop) (r : res A) : tandem P eq (lift r) (lift r).
Proof. apply tan_lift. destruct r; reflexivity. Qed.
