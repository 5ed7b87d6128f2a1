(* Reading objects that may be frozen; helpers for the swarm-like metaheuristics. *)
From Coq Require Import Lia Permutation.
From Verif Require Import PyNum PyList PyMon PyRng PyStat L_Num L_List L_Rng M_Matching M_Rule M_Mixing L_Mixing M_Solution S_Solution
  L_Heap L_HeapProps M_Composition L_Safe L_SafeFit M_GenomeOps S_GenomeOps L_GenomeOps M_Abc.

Ltac notbad := let H := fresh in intros [H|H]; discriminate H.
Lemma Forall2_length {T U} (R : T -> U -> Prop) a b : Forall2 R a b -> length a = length b.
Proof. induction 1; cbn; auto. Qed.
Lemma combine_nth2 {T U} (a : list T) (b : list U) i x y : nth_error a i = Some x -> nth_error b i = Some y -> nth_error (combine a b) i = Some (x, y).
Proof. revert b i. induction a as [|u a IH]; intros [|v b] [|i]; cbn; intros; try discriminate; [congruence|auto]. Qed.
Lemma Forall2_nth1 {T U} (R : T -> U -> Prop) a b i x : Forall2 R a b -> nth_error a i = Some x -> exists y, nth_error b i = Some y /\ R x y.
Proof. intros H. revert i. induction H as [|u v a b Huv H IH]; intros [|i]; cbn; intros Hx; try discriminate; [inversion Hx; subst; eauto|auto]. Qed.
Lemma Forall2_nth2 {T U} (R : T -> U -> Prop) a b i y : Forall2 R a b -> nth_error b i = Some y -> exists x, nth_error a i = Some x /\ R x y.
Proof. intros H. revert i. induction H as [|u v a b Huv H IH]; intros [|i]; cbn; intros Hx; try discriminate; [inversion Hx; subst; eauto|auto]. Qed.
Lemma all_nth {T} (P : T -> Prop) l : (forall i x, nth_error l i = Some x -> P x) -> Forall P l.
Proof. intros H. apply Forall_forall. intros x Hx. apply In_nth_error in Hx as (i & Hi). eauto. Qed.
Lemma nth_len {T U} (a : list T) (b : list U) i y : length a = length b -> nth_error b i = Some y -> exists x, nth_error a i = Some x.
Proof.
  intros H Hy. destruct (nth_error a i) eqn:Ea; eauto. apply nth_error_None in Ea. assert (i < length b)%nat by (apply nth_error_Some; congruence). lia.
Qed.

Section Held.
Context {K : skind} {L : learner}.
Variable E : env L.
Variable A : nat -> Prop.
Implicit Types s : hst K.
Let n := length (epool E).
Local Notation safe := (safe E A).
Local Notation good := (good E A).
Local Notation inv := (inv A).

Definition held s (r : nat) : Prop := good s r \/ A r /\ exists bits a x, vw s r = Some (bits, a, x) /\ length bits = n.
Lemma held_vw s r : held s r -> exists bits a x, vw s r = Some (bits, a, x) /\ length bits = n.
Proof. intros [(_ & H)|[_ H]]; exact H. Qed.
Lemma good_held s r : good s r -> held s r. Proof. left; auto. Qed.
Lemma goods_held s rs : Forall (good s) rs -> Forall (held s) rs.
Proof. apply Forall_impl. apply good_held. Qed.
Lemma grow_held h s s' r : grow E A h s s' -> held s r -> held s' r.
Proof.
  intros G [H|[HA (b & a & x & H & HL)]]; [left; eapply grow_good; eauto|]. right. split; auto. exists b, a, x.
  rewrite (proj1 (proj2 (proj2 G)) r HA). auto.
Qed.
Lemma grow_helds h s s' rs : grow E A h s s' -> Forall (held s) rs -> Forall (held s') rs.
Proof. intros G. apply Forall_impl. intros r. eapply grow_held; eauto. Qed.
Lemma held_live s r : held s r -> live s r.
Proof. intros H. apply held_vw in H as (b & a & x & H & _). eapply vw_live; eauto. Qed.

Lemma safe_genome_held h s r : inv s -> held s r ->
  safe h (genome r) (fun bits s' => s' = s /\ length bits = n /\ exists a, shows s r bits a) s.
Proof.
  intros I H. apply held_vw in H as (bits & a & x & HV & HL). eapply safe_pure; [exact I|apply (genome_eq _ _ _ _ _ HV)|].
  cbn. split; auto. split; auto. exists a. apply shows_vw; eauto.
Qed.
Lemma safe_fitness_held h s r : inv s -> held s r -> safe h (fitness r) (fun f s' => s' = s /\ has_fit s r f) s.
Proof.
  intros I H. apply held_vw in H as (bits & a & x & HV & HL). eapply safe_pure; [exact I|apply (fitness_eq _ _ _ _ _ HV)|].
  destruct a as [a|]; cbn; [|notbad]. split; auto. exists bits, a. split; auto. apply shows_vw; eauto.
Qed.
Lemma safe_clone_with_held h s r bits : inv s -> held s r -> length bits = n ->
  safe h (clone_with r bits) (fun c s' => good s' c /\ ~ live s c /\ shows s' c bits None) s.
Proof.
  intros I H HL. apply held_vw in H as (b & a & x & HV & _). unfold L_Safe.safe. rewrite (clone_with_eq _ _ _ _ _ _ HV).
  split; [apply grow_weak, grow_push; auto|]. split; [apply good_push; auto|]. split; [unfold live; lia|].
  apply shows_vw. exists (ext_copy K x). rewrite vw_push, Nat.eqb_refl by apply I. reflexivity.
Qed.
Lemma has_fit_vw s s' r f : vw s' r = vw s r -> has_fit s r f -> has_fit s' r f.
Proof. intros HV (b & a & HS & ->). exists b, a. split; auto. apply shows_vw in HS as (x & HS). apply shows_vw. exists x. rewrite HV; auto. Qed.
Lemma has_fit_live s r f : has_fit s r f -> live s r.
Proof. intros (b & a & HS & _). apply shows_vw in HS as (x & HS). eapply vw_live; eauto. Qed.

Lemma safe_randoms h k s : inv s -> safe h (rnd1 (randoms k)) (fun us _ => length us = k /\ Forall (fun u => 0 <= u < 1) us) s.
Proof. intros I. apply (safe_rnd1 E A h _ (fun us => length us = k /\ Forall (fun u => 0 <= u < 1) us)); auto. split; [apply randoms_length|apply randoms_range]. Qed.
Lemma safe_draws h k s : inv s -> safe h (rnd1 (draws k)) (fun us _ => length us = k) s.
Proof. intros I. apply (safe_rnd1 E A h _ (fun us => length us = k)); auto. apply draws_length. Qed.
Lemma safe_random h s : inv s -> safe h (rnd1 random) (fun u _ => 0 <= u < 1) s.
Proof. intros I. apply (safe_rnd1 E A h _ (fun u => 0 <= u < 1)); auto. apply u01_range. Qed.
Lemma safe_sample h {T} (l : list T) k s : inv s ->
  safe h (rnd (sample l k)) (fun r _ => length r = k /\ exists rest, Permutation l (r ++ rest)) s.
Proof.
  intros I. apply (safe_rnd E A h _ (fun r => length r = k /\ exists rest, Permutation l (r ++ rest))); auto.
  destruct (sample l k (hrng s)) as [[r|e] g] eqn:HE; cbn [fst]; [eapply sample_ok; eauto|eapply sample_raise; eauto].
Qed.
Lemma safe_any_choices h {T} (l : list T) k s : inv s ->
  safe h (rnd (choices l k)) (fun r _ => length r = k /\ Forall (fun x => In x l) r) s.
Proof.
  intros I. apply (safe_rnd E A h _ (fun r => length r = k /\ Forall (fun x => In x l) r)); auto.
  destruct (choices l k (hrng s)) as [[r|e] g] eqn:HE; cbn [fst].
  - apply choices_ok in HE; auto.
  - unfold choices in HE. destruct l.
    + destruct (Nat.eqb k 0); inversion HE; apply notbad_value.
    + destruct (draws k (hrng s)); discriminate.
Qed.
End Held.
Ltac inv_of G := exact (grow_inv _ _ _ _ _ G).

Section Bits.
Context {L : learner}.
Variable E : env L.
Variable A : nat -> Prop.
Lemma safe_sigmoid_binarize h M xs (s : hst plain) : inv A s ->
  safe E A h (sigmoid_binarize M xs) (fun b _ => length b = length xs) s.
Proof.
  intros I. unfold sigmoid_binarize. eapply safe_bind; [apply safe_randoms; auto|]. intros us s' G [HL _]. cbv beta.
  apply safe_ret; [inv_of G|]. rewrite map2_length; auto.
Qed.
End Bits.
