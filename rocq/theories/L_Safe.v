(* A program logic for computations on the heap of solutions:
   objects in A are frozen, good objects (live, not frozen, genome as long as the pool) stay good,
   no AssertionError and no dangling address; with h = true also: honestly measured objects stay so. *)
From Coq Require Import Lia.
From Verif Require Import PyNum PyList PyMon PyRng L_List L_Rng M_Matching M_Rule M_Mixing L_Mixing M_Solution S_Solution
  L_Heap L_HeapProps M_Composition.

Definition bad (e : exn) : Prop := e = AssertionError \/ e = Dangling.

Section Safe.
Context {K : skind} {L : learner}.
Variable E : env L.
Variable A : nat -> Prop.
Implicit Types s : hst K.
Let n := length (epool E).

Definition good s (r : nat) : Prop := ~ A r /\ exists bits a x, vw s r = Some (bits, a, x) /\ length bits = n.
Definition core s (r : nat) : option (list bool * option satts) :=
  match vw s r with Some (b, a, _) => Some (b, a) | None => None end.
Definition inv s : Prop := wf s /\ forall r, A r -> live s r.
Definition grow (h : bool) s s' : Prop :=
  inv s' /\ (length (sols s) <= length (sols s'))%nat /\
  (forall r, A r -> vw s' r = vw s r) /\
  (forall r, good s r -> good s' r) /\
  (h = true -> forall r, honest E s r -> honest E s' r /\ (deterministic (emix E) -> core s' r = core s r)).

Definition safe {T} (h : bool) (m : HSt K T) (Q : T -> hst K -> Prop) s : Prop :=
  match m s with
  | (Ok a, s') => grow h s s' /\ Q a s'
  | (Raise e, _) => ~ bad e
  end.

Lemma core_shows s r bits a : core s r = Some (bits, a) <-> shows s r bits a.
Proof.
  rewrite shows_vw. unfold core. destruct (vw s r) as [[[b c] x]|].
  - split; [intros H; inversion H; subst; eauto | intros (y & H); inversion H; subst; auto].
  - split; [discriminate | intros (y & H); discriminate].
Qed.
Lemma honest_core s s' r : core s' r = core s r -> honest E s r -> honest E s' r.
Proof.
  intros HC (bits & a & g & g' & HS & H). exists bits, a, g, g'. split; auto.
  apply core_shows. rewrite HC. apply core_shows. exact HS.
Qed.
Lemma vw_core s s' r : vw s' r = vw s r -> core s' r = core s r.
Proof. unfold core. intros ->. reflexivity. Qed.

Lemma grow_refl h s : inv s -> grow h s s.
Proof. intros I. split; auto. Qed.
Lemma grow_inv h s s' : grow h s s' -> inv s'. Proof. intros H; apply H. Qed.
Lemma grow_trans h s1 s2 s3 : grow h s1 s2 -> grow h s2 s3 -> grow h s1 s3.
Proof.
  intros (I2 & L2 & A2 & G2 & H2) (I3 & L3 & A3 & G3 & H3). split; auto. split; [lia|].
  split; [intros r HA; rewrite A3, A2; auto|]. split; [auto|].
  intros Hh r Hr. destruct (H2 Hh r Hr) as [Hr2 HC2]. destruct (H3 Hh r Hr2) as [Hr3 HC3].
  split; auto. intros HD. rewrite HC3, HC2; auto.
Qed.
Lemma grow_weak h s s' : grow true s s' -> grow h s s'.
Proof. intros (I & Ln & HA & G & H). split; auto. Qed.
Lemma grow_good h s s' r : grow h s s' -> good s r -> good s' r.
Proof. intros H; apply H. Qed.
Lemma grow_goods h s s' rs : grow h s s' -> Forall (good s) rs -> Forall (good s') rs.
Proof. intros H. apply Forall_impl. intros r. apply (grow_good _ _ _ _ H). Qed.
Lemma grow_honest s s' r : grow true s s' -> honest E s r -> honest E s' r.
Proof. intros (_ & _ & _ & _ & H) Hr. apply H; auto. Qed.
Lemma grow_honests s s' rs : grow true s s' -> Forall (honest E s) rs -> Forall (honest E s') rs.
Proof. intros H. apply Forall_impl. intros r. apply (grow_honest _ _ _ H). Qed.

Lemma safe_ret {T} h (a : T) (Q : T -> hst K -> Prop) s : inv s -> Q a s -> safe h (ret a) Q s.
Proof. intros I H. split; auto. apply grow_refl; auto. Qed.
Lemma safe_raise {T} h e (Q : T -> hst K -> Prop) s : ~ bad e -> safe h (raise e) Q s.
Proof. intros H; exact H. Qed.
Lemma safe_bind {T U} h (m : HSt K T) (k : T -> HSt K U) Q Q' s :
  safe h m Q s -> (forall a s', grow h s s' -> Q a s' -> safe h (k a) Q' s') -> safe h (bind m k) Q' s.
Proof.
  unfold safe, bind. destruct (m s) as [[a|e] s']; auto. intros [G HQ] HK. specialize (HK a s' G HQ).
  destruct (k a s') as [[b|e] s'']; auto. destruct HK as [G' HQ']. split; auto. eapply grow_trans; eauto.
Qed.
Lemma safe_post {T} h (m : HSt K T) (Q Q' : T -> hst K -> Prop) s :
  safe h m Q s -> (forall a s', grow h s s' -> Q a s' -> Q' a s') -> safe h m Q' s.
Proof. unfold safe. destruct (m s) as [[a|e] s']; auto. intros [G HQ] H. split; auto. Qed.
Lemma safe_weak {T} h (m : HSt K T) Q s : safe true m Q s -> safe h m Q s.
Proof. unfold safe. destruct (m s) as [[a|e] s']; auto. intros [G HQ]. split; auto. apply grow_weak; auto. Qed.
Lemma safe_lift {T} h (r : res T) (Q : T -> hst K -> Prop) s :
  inv s -> match r with Ok a => Q a s | Raise e => ~ bad e end -> safe h (lift r) Q s.
Proof. intros I H. unfold safe, lift. destruct r; auto. split; auto. apply grow_refl; auto. Qed.
(* computations that leave the state alone *)
Lemma safe_pure {T} h (m : HSt K T) (Q : T -> hst K -> Prop) s r :
  inv s -> m s = (r, s) -> match r with Ok a => Q a s | Raise e => ~ bad e end -> safe h m Q s.
Proof. intros I HE H. unfold safe. rewrite HE. destruct r; auto. split; auto. apply grow_refl; auto. Qed.

Lemma safe_mmap {T U} h (f : T -> HSt K U) (Q : T -> U -> hst K -> Prop) l s :
  inv s ->
  (forall x y s1 s2, grow h s1 s2 -> Q x y s1 -> Q x y s2) ->
  (forall x s', In x l -> grow h s s' -> safe h (f x) (Q x) s') ->
  safe h (mmap f l) (fun ys s' => Forall2 (fun x y => Q x y s') l ys) s.
Proof.
  intros I HM. revert s I. induction l as [|x l IH]; intros s I HF.
  - apply safe_ret; auto.
  - cbn [mmap]. eapply safe_bind; [apply HF; [left; auto | apply grow_refl; auto]|].
    intros y s1 G1 HQ1. cbv beta. eapply safe_bind.
    + apply IH; [apply (grow_inv _ _ _ G1)|]. intros x' s' Hx G. apply HF; [right; auto|]. eapply grow_trans; eauto.
    + intros ys s2 G2 HQ2. apply safe_ret; [apply (grow_inv _ _ _ G2)|]. constructor; auto. eapply HM; eauto.
Qed.
Lemma safe_miter {T} h (f : T -> HSt K unit) (Q : T -> hst K -> Prop) l s :
  inv s -> (forall x s1 s2, grow h s1 s2 -> Q x s1 -> Q x s2) ->
  (forall x s', In x l -> grow h s s' -> safe h (f x) (fun _ => Q x) s') ->
  safe h (miter f l) (fun _ s' => Forall (fun x => Q x s') l) s.
Proof.
  intros I HM. revert s I. induction l as [|x l IH]; intros s I HF.
  - apply safe_ret; auto.
  - cbn [miter]. eapply safe_bind; [apply HF; [left; auto | apply grow_refl; auto]|].
    intros u1 s1 G1 HQ1. cbv beta in *. eapply safe_post.
    + apply IH; [apply (grow_inv _ _ _ G1)|]. intros x' s' Hx G. apply HF; [right; auto|]. eapply grow_trans; eauto.
    + intros u2 s2 G2 HQ2. constructor; auto. eapply HM; eauto.
Qed.
Lemma safe_times {T} h (m : HSt K T) (Q : T -> hst K -> Prop) k s :
  inv s -> (forall y s1 s2, grow h s1 s2 -> Q y s1 -> Q y s2) ->
  (forall s', grow h s s' -> safe h m Q s') ->
  safe h (times k m) (fun ys s' => length ys = k /\ Forall (fun y => Q y s') ys) s.
Proof.
  intros I HM. revert s I. induction k as [|k IH]; intros s I HF.
  - apply safe_ret; auto.
  - cbn [times]. eapply safe_bind; [apply HF, grow_refl; auto|].
    intros y s1 G1 HQ1. cbv beta. eapply safe_bind.
    + apply IH; [apply (grow_inv _ _ _ G1)|]. intros s' G. apply HF. eapply grow_trans; eauto.
    + intros ys s2 G2 [HL HQ2]. apply safe_ret; [apply (grow_inv _ _ _ G2)|]. split; [simpl; lia|].
      constructor; auto. eapply HM; eauto.
Qed.

(* ----- primitive operations ----- *)
Lemma good_not_A s r : good s r -> ~ A r. Proof. intros H; apply H. Qed.
Lemma good_live s r : good s r -> live s r.
Proof. intros (_ & b & a & x & H & _). apply vw_live in H. exact H. Qed.

Lemma grow_push s bits a x : inv s -> grow true s (push s bits a x).
Proof.
  intros [W HA].
  assert (HV : forall r, live s r -> vw (push s bits a x) r = vw s r).
  { intros r Hr. rewrite vw_push; auto. unfold live in Hr. destruct (Nat.eqb_spec r (length (sols s))); [lia|auto]. }
  split; [split; [apply wf_push; auto | intros r Hr; specialize (HA r Hr); unfold live in *; simpl; rewrite app_length; lia]|].
  split; [simpl; rewrite app_length; lia|].
  split; [intros r Hr; apply HV; auto|]. split.
  - intros r Hr. pose proof (good_live _ _ Hr) as HL. destruct Hr as (HN & b & a0 & x0 & HV0 & Hlen).
    split; auto. exists b, a0, x0. rewrite HV; auto.
  - intros _ r Hr. assert (HL : live s r).
    { destruct Hr as (b & a0 & g & g' & HS & _). apply shows_vw in HS as (x0 & HS). apply vw_live in HS; auto. }
    assert (HC : core (push s bits a x) r = core s r) by (apply vw_core, HV; auto).
    split; auto. eapply honest_core; eauto.
Qed.
Lemma grow_with_r h s g : inv s -> grow h s (with_r s g).
Proof.
  intros [W HA]. split; [split; auto|]. split; [simpl; lia|]. split; [auto|]. split; [auto|].
  intros _ r Hr. split; auto.
Qed.
(* an update of one good object r *)
Lemma grow_at h s s' r bits a x : inv s -> wf s' -> good s r -> length (sols s') = length (sols s) ->
  (forall i, vw s' i = if Nat.eqb i r then Some (bits, a, x) else vw s i) -> length bits = n ->
  (h = true -> honest E s r -> honest E s' r /\ (deterministic (emix E) -> core s' r = core s r)) ->
  grow h s s' /\ good s' r.
Proof.
  intros [W HA] W' HG HL HV Hlen HH.
  assert (HG' : good s' r).
  { split; [apply (good_not_A _ _ HG)|]. exists bits, a, x. rewrite HV, Nat.eqb_refl. auto. }
  split; auto. split; [split; auto; intros q Hq; specialize (HA q Hq); unfold live in *; lia|].
  split; [lia|]. split.
  - intros q Hq. rewrite HV. destruct (Nat.eqb_spec q r); auto. subst. destruct HG; contradiction.
  - split.
    + intros q Hq. destruct (Nat.eq_dec q r) as [->|Hne]; auto.
      destruct Hq as (HN & b & a0 & x0 & HV0 & Hl). split; auto. exists b, a0, x0. rewrite HV.
      destruct (Nat.eqb_spec q r); [congruence|auto].
    + intros Hh q Hq. destruct (Nat.eq_dec q r) as [->|Hne]; auto.
      assert (HC : core s' q = core s q).
      { apply vw_core. rewrite HV. destruct (Nat.eqb_spec q r); [congruence|auto]. }
      split; auto. eapply honest_core; eauto.
Qed.

Lemma safe_genome h s r : inv s -> good s r ->
  safe h (genome r) (fun bits s' => s' = s /\ length bits = n /\ exists a, shows s r bits a) s.
Proof.
  intros I (HN & bits & a & x & HV & HL). eapply safe_pure; [exact I|apply (genome_eq _ _ _ _ _ HV)|].
  cbn. split; auto. split; auto. exists a. apply shows_vw; eauto.
Qed.
Lemma safe_get_satt h s r : inv s -> good s r ->
  safe h (get_satt r) (fun a s' => s' = s /\ exists bits, shows s r bits (Some a)) s.
Proof.
  intros I (HN & bits & a & x & HV & HL). eapply safe_pure; [exact I|apply (get_satt_eq _ _ _ _ _ HV)|].
  destruct a as [a|]; cbn; [|intros [H|H]; discriminate]. split; auto. exists bits. apply shows_vw; eauto.
Qed.
Lemma safe_fitness h s r : inv s -> good s r ->
  safe h (fitness r) (fun f s' => s' = s /\ exists bits a, shows s r bits (Some a) /\ f = sfitness a) s.
Proof.
  intros I (HN & bits & a & x & HV & HL). eapply safe_pure; [exact I|apply (fitness_eq _ _ _ _ _ HV)|].
  destruct a as [a|]; cbn; [|intros [H|H]; discriminate]. split; auto. exists bits, a. split; auto. apply shows_vw; eauto.
Qed.
Lemma safe_get_ext h s r : inv s -> good s r ->
  safe h (get_ext r) (fun x s' => s' = s /\ has_ext s r x) s.
Proof.
  intros I (HN & bits & a & x & HV & HL). eapply safe_pure; [exact I|apply (get_ext_eq _ _ _ _ _ HV)|].
  cbn. split; auto. apply vw_inv in HV as (o & H1 & _ & _ & H2). exists o; auto.
Qed.
Lemma good_push s bits a x : inv s -> length bits = n -> good (push s bits a x) (length (sols s)).
Proof.
  intros [W HA] HL. split.
  - intros H. specialize (HA _ H). unfold live in HA. lia.
  - exists bits, a, x. rewrite vw_push, Nat.eqb_refl; auto.
Qed.
Lemma safe_new_sol h s bits : inv s -> length bits = n ->
  safe h (new_sol bits) (fun r s' => good s' r /\ ~ live s r /\ shows s' r bits None /\ has_ext s' r (ext0 K)) s.
Proof.
  intros I HL. unfold safe. rewrite new_sol_eq. split; [apply grow_weak, grow_push; auto|].
  split; [apply good_push; auto|]. split; [unfold live; lia|]. split.
  - apply shows_vw. eexists. rewrite vw_push, Nat.eqb_refl; [reflexivity|apply I].
  - eexists. split; [simpl; rewrite nth_error_snoc, Nat.eqb_refl; reflexivity|reflexivity].
Qed.
Lemma safe_clone_with h s r bits : inv s -> good s r -> length bits = n ->
  safe h (clone_with r bits) (fun c s' => good s' c /\ ~ live s c /\ shows s' c bits None /\
     forall x, has_ext s r x -> has_ext s' c (ext_copy K x)) s.
Proof.
  intros I (HN & b & a & x & HV & _) HL. unfold safe. rewrite (clone_with_eq _ _ _ _ _ _ HV).
  split; [apply grow_weak, grow_push; auto|].
  split; [apply good_push; auto|]. split; [unfold live; lia|]. split.
  - apply shows_vw. eexists. rewrite vw_push, Nat.eqb_refl; [reflexivity|apply I].
  - intros x' (o & H1 & H2). apply vw_inv in HV as (o' & H1' & _ & _ & H2').
    assert (o' = o) by congruence. subst o'. eexists. split; [simpl; rewrite nth_error_snoc, Nat.eqb_refl; reflexivity|].
    simpl. congruence.
Qed.
Lemma safe_clone h s r : inv s -> good s r ->
  safe h (clone r) (fun c s' => good s' c /\ ~ live s c /\ forall bits a, shows s r bits a -> shows s' c bits a) s.
Proof.
  intros I (HN & b & [a|] & x & HV & HL); unfold safe.
  - rewrite (clone_eq _ _ _ _ _ (proj1 I) HV). split; [apply grow_weak, grow_push; auto|].
    split; [apply good_push; auto|]. split; [unfold live; lia|]. intros bits a' HS. apply shows_vw in HS as (x' & HS).
    rewrite HV in HS. inversion HS; subst. apply shows_vw. eexists. rewrite vw_push, Nat.eqb_refl; [reflexivity|apply I].
  - rewrite (clone_unfitted _ _ _ _ (proj1 I) HV). intros [H|H]; discriminate.
Qed.
Lemma safe_set_genome s r bits : inv s -> good s r -> length bits = n ->
  safe false (set_genome r bits) (fun _ s' => good s' r) s.
Proof.
  intros I HG HL. pose proof HG as (HN & b & a & x & HV & _). unfold safe. rewrite (set_genome_eq _ _ _ _ _ _ HV).
  apply (grow_at false s _ r bits a x); auto.
  - apply wf_rebound, I.
  - simpl. apply update_length.
  - intros i. apply vw_rebound; [apply I|]. apply (good_live _ _ HG).
  - discriminate.
Qed.
Lemma safe_write_genome s r f : inv s -> good s r -> (forall b, length (f b) = length b) ->
  safe false (write_genome r f) (fun _ s' => good s' r) s.
Proof.
  intros I HG HF. pose proof HG as (HN & b & a & x & HV & HL). unfold safe.
  destruct (write_genome_eq s r _ _ _ f (proj1 I) HV) as (s' & -> & W' & HLen & HV').
  apply (grow_at false s _ r (f b) a x); auto; [rewrite HF; auto|discriminate].
Qed.
Lemma safe_set_ext h s r x' : inv s -> good s r -> safe h (set_ext r x') (fun _ s' => has_ext s' r x') s.
Proof.
  intros I HG. apply safe_weak. pose proof HG as (HN & b & a & x & HV & HL). unfold safe. rewrite (set_ext_eq _ _ _ _ _ _ HV).
  pose proof HV as HV0. apply vw_inv in HV0 as (o & H1 & H2 & Ha & Hx).
  assert (HVs : forall i, vw (reset s r (fun o => mkSol (gref o) (satt o) x')) i = if Nat.eqb i r then Some (b, a, x') else vw s i).
  { intros i. rewrite vw_reset; [|auto|apply I]. destruct (Nat.eqb i r); auto. rewrite H1. cbn [satt sext]. rewrite HV, Ha. reflexivity. }
  split.
  - eapply (grow_at true s _ r b a x'); auto.
    + apply wf_reset; [auto|apply I].
    + unfold reset. rewrite H1. simpl. apply update_length.
    + intros _ Hh. assert (HC : core (reset s r (fun o => mkSol (gref o) (satt o) x')) r = core s r).
      { unfold core. rewrite HVs, Nat.eqb_refl, HV. reflexivity. }
      split; auto. eapply honest_core; eauto.
  - eexists. unfold reset. rewrite H1. cbn [sols]. split; [rewrite update_nth, Nat.eqb_refl, H1; reflexivity|reflexivity].
Qed.
Lemma safe_rnd {T} h (f : rng -> res T * rng) (Q : T -> Prop) s : inv s ->
  (match fst (f (hrng s)) with Ok a => Q a | Raise e => ~ bad e end) ->
  safe h (rnd f) (fun a _ => Q a) s.
Proof.
  intros I H. unfold safe, rnd. destruct (f (hrng s)) as [[a|e] g]; cbn in *; auto. split; auto. apply grow_with_r; auto.
Qed.
Lemma safe_rnd1 {T} h (f : rng -> T * rng) (Q : T -> Prop) s : inv s -> Q (fst (f (hrng s))) ->
  safe h (rnd1 f) (fun a _ => Q a) s.
Proof.
  intros I H. unfold rnd1. apply safe_rnd; auto. destruct (f (hrng s)); auto.
Qed.
Lemma safe_random_bits h k p s : inv s -> safe h (random_bits k p) (fun bits _ => length bits = k) s.
Proof.
  intros I. unfold random_bits. eapply safe_bind; [apply (safe_rnd1 h _ (fun us => length us = k)); auto; apply randoms_length|].
  intros us s' G HL. cbv beta in *. apply safe_ret; [apply (grow_inv _ _ _ G)|]. rewrite map_length; auto.
Qed.
Lemma safe_init_call h i s : inv s ->
  safe h (init_call i n) (fun r s' => good s' r /\ ~ live s r /\ has_ext s' r (ext0 K)) s.
Proof.
  intros I. destruct i as [|p]; cbn [init_call].
  - eapply safe_post; [apply safe_new_sol; auto; apply repeat_length|]. cbv beta. intuition.
  - eapply safe_bind; [apply safe_random_bits; auto|]. intros bits s' G HL. cbv beta in *.
    eapply safe_post; [apply safe_new_sol; auto; apply (grow_inv _ _ _ G)|]. cbv beta.
    intros r s2 _ (H1 & H2 & _ & H3). split; auto. split; auto. intros HL'. apply H2. unfold live in *.
    pose proof (proj1 (proj2 G)). lia.
Qed.
End Safe.
