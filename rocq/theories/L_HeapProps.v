(* Independence of clones, padding. *)
From Coq Require Import Lia.
From Verif Require Import PyNum PyList PyMon PyRng L_List L_Rng M_Matching M_Rule L_RuleProps M_Mixing L_MixingProps M_Solution S_Solution L_Heap.

Section Props.
Context {K : skind}.
Implicit Types s : hst K.

Definition stable (c : option nat) s s' : Prop :=
  wf s' /\ (length (sols s) <= length (sols s'))%nat /\
  forall r, live s r -> c <> Some r -> vw s' r = vw s r.

Lemma stable_refl c s : wf s -> stable c s s.
Proof. intros W; split; auto. Qed.
Lemma stable_push c s bits a x : wf s -> stable c s (push s bits a x).
Proof.
  intros W; split; [apply wf_push; auto|]. split; [simpl; rewrite app_length; lia|].
  intros r HL _. rewrite vw_push; auto. unfold live in HL. destruct (Nat.eqb_spec r (length (sols s))); [lia|reflexivity].
Qed.
Lemma stable_junk c s bits : wf s -> stable c s (junk s bits).
Proof.
  intros W; split; [apply wf_junk; auto|]. split; [simpl; lia|]. intros r HL _. apply vw_junk; auto.
Qed.
Lemma stable_with_r c s g : wf s -> stable c s (with_r s g).
Proof. intros W; split; [exact W|]. split; [simpl; lia|]. reflexivity. Qed.

Lemma get_sol_raise s r : nth_error (sols s) r = None -> get_sol r s = (Raise Dangling, s).
Proof. unfold get_sol; intros ->; reflexivity. Qed.

Lemma run_op_stable {L} (h : hop K L) s : wf s -> stable (changes h) s (snd (run_op h s)).
Proof.
  intros W.
  assert (D : forall r, (exists bits a x, vw s r = Some (bits, a, x)) \/ nth_error (sols s) r = None).
  { intros r. destruct (Nat.lt_ge_cases r (length (sols s))) as [H|H].
    - left. apply live_vw; auto.
    - right. apply nth_error_None; auto. }
  destruct h as [bits|r|r bits|r bits|r i b|r E|r x']; cbn [run_op changes].
  - unfold bind. rewrite new_sol_eq. cbn. apply stable_push; auto.
  - destruct (D r) as [(bits & a & x & H)|H].
    + destruct a as [a|].
      * unfold bind. rewrite (clone_eq _ _ _ _ _ W H). apply stable_push; auto.
      * unfold bind. rewrite (clone_unfitted _ _ _ _ W H). apply stable_junk; auto.
    + unfold clone, genome, bind. rewrite get_sol_raise; auto. apply stable_refl; auto.
  - destruct (D r) as [(bits0 & a & x & H)|H].
    + unfold bind. rewrite (clone_with_eq _ _ _ _ _ _ H). apply stable_push; auto.
    + unfold clone_with, get_ext, bind. rewrite get_sol_raise; auto. apply stable_refl; auto.
  - destruct (D r) as [(bits0 & a & x & H)|H].
    + rewrite (set_genome_eq _ _ _ _ _ _ H). cbn [snd]. split; [apply wf_rebound; auto|].
      split; [simpl; rewrite update_length; lia|]. intros i HL HC. rewrite vw_rebound; auto.
      * destruct (Nat.eqb_spec i r); [subst; congruence|reflexivity].
      * apply vw_live in H; exact H.
    + unfold set_genome, bind. rewrite get_sol_raise; auto. apply stable_refl; auto.
  - destruct (D r) as [(bits0 & a & x & H)|H].
    + destruct (write_genome_eq s r _ _ _ (fun bits => update bits i b) W H) as (s' & -> & W' & HLen & HV).
      cbn [snd]. split; auto. split; [lia|]. intros j HL HC. rewrite HV.
      destruct (Nat.eqb_spec j r); [subst; congruence|reflexivity].
    + unfold write_genome, bind. rewrite get_sol_raise; auto. apply stable_refl; auto.
  - destruct (D r) as [(bits0 & a & x & H)|H].
    + pose proof (fit_eq E s r _ _ _ W H) as HF.
      destruct (sol_fit L (emix E) (efit E) bits0 (epool E) (eX E) (ey E) (hrng s)) as [[a'|e] g'].
      * destruct HF as (s' & HE & W' & HLen & _ & HV). unfold bind. rewrite HE. cbn. split; auto. split; [lia|].
        intros j HL HC. rewrite HV. destruct (Nat.eqb_spec j r); [subst; congruence|reflexivity].
      * unfold bind. rewrite HF. apply stable_with_r; auto.
    + unfold fit, genome, bind. rewrite get_sol_raise; auto. apply stable_refl; auto.
  - destruct (D r) as [(bits0 & a & x & H)|H].
    + rewrite (set_ext_eq _ _ _ _ _ _ H). cbn [snd]. split; [apply wf_reset; auto|]. split.
      { unfold reset. destruct (nth_error (sols s) r); simpl; [rewrite update_length|]; lia. }
      intros j HL HC. rewrite vw_reset; auto. destruct (Nat.eqb_spec j r); [subst; congruence|reflexivity].
    + unfold set_ext, bind. rewrite get_sol_raise; auto. apply stable_refl; auto.
Qed.
Lemma run_ops_wf {L} (hs : list (hop K L)) s : wf s -> wf (run_ops hs s).
Proof.
  revert s; induction hs as [|h hs IH]; intros s W; cbn [run_ops]; auto. apply IH. apply run_op_stable; auto.
Qed.
Lemma run_ops_frame {L} (hs : list (hop K L)) s r : wf s -> live s r -> Forall (fun h => changes h <> Some r) hs ->
  vw (run_ops hs s) r = vw s r.
Proof.
  revert s; induction hs as [|h hs IH]; intros s W HL HF; cbn [run_ops]; auto.
  destruct (run_op_stable h s W) as (W' & HLen & HV). rewrite IH; auto.
  - apply HV; auto. apply Forall_inv in HF. exact HF.
  - unfold live in *. lia.
  - apply Forall_inv_tail in HF. exact HF.
Qed.
Lemma wf_empty g : wf (mkH (K := K) [] [] g).
Proof. split; cbn; intros r; [intros o H | intros r2 o1 o2 H]; destruct r; discriminate. Qed.
End Props.

Lemma built_wf {K} (s : hst K) : built s -> wf s.
Proof. intros (L & hs & g & ->). apply run_ops_wf, wf_empty. Qed.

Lemma clone_independent {K L} (s : hst K) r c s' :
  built s -> clone r s = (Ok c, s') ->
  c <> r /\ ~ live s c /\
  (exists bits a, shows s r bits (Some a) /\ shows s' r bits (Some a) /\ shows s' c bits (Some a)) /\
  forall (hs : list (hop K L)),
    (Forall (fun h => changes h <> Some c) hs ->
     forall bits a, shows s' c bits a -> shows (run_ops hs s') c bits a) /\
    (Forall (fun h => changes h <> Some r) hs ->
     forall bits a, shows s' r bits a -> shows (run_ops hs s') r bits a).
Proof.
  intros HB HC. pose proof (built_wf _ HB) as W.
  assert (HL : live s r).
  { destruct (Nat.lt_ge_cases r (length (sols s))) as [H|H]; auto.
    exfalso. unfold clone, genome, bind in HC. rewrite get_sol_raise in HC; [discriminate|]. apply nth_error_None; auto. }
  destruct (live_vw _ _ W HL) as (bits & [a|] & x & HV).
  2: { rewrite (clone_unfitted _ _ _ _ W HV) in HC. discriminate. }
  rewrite (clone_eq _ _ _ _ _ W HV) in HC. inversion HC; subst c s'. clear HC.
  assert (W' : wf (push s bits (Some a) (ext_copy K x))) by (apply wf_push; auto).
  assert (Hr : vw (push s bits (Some a) (ext_copy K x)) r = Some (bits, Some a, x)).
  { rewrite vw_push; auto. destruct (Nat.eqb_spec r (length (sols s))); [unfold live in HL; lia|exact HV]. }
  assert (Hc : vw (push s bits (Some a) (ext_copy K x)) (length (sols s)) = Some (bits, Some a, ext_copy K x)).
  { rewrite vw_push, Nat.eqb_refl; auto. }
  split; [unfold live in HL; lia|]. split; [unfold live; lia|]. split.
  - exists bits, a. split; [apply shows_vw; eauto|]. split; apply shows_vw; eauto.
  - intros hs. split; intros HF b2 a2 HS; apply shows_vw in HS as (x2 & HS); apply shows_vw; exists x2.
    + rewrite run_ops_frame; auto. apply vw_live in Hc; exact Hc.
    + rewrite run_ops_frame; auto. apply vw_live in Hr; exact Hr.
Qed.

Lemma clone_with_unmeasured {K} (s : hst K) r bits c s' :
  built s -> clone_with r bits s = (Ok c, s') ->
  c <> r /\ shows s' c bits None /\ fitness c s' = (Raise AttributeError, s') /\
  forall bits0 a, shows s r bits0 a -> shows s' r bits0 a.
Proof.
  intros HB HC. pose proof (built_wf _ HB) as W.
  assert (HL : live s r).
  { destruct (Nat.lt_ge_cases r (length (sols s))) as [H|H]; auto.
    exfalso. unfold clone_with, get_ext, bind in HC. rewrite get_sol_raise in HC; [discriminate|]. apply nth_error_None; auto. }
  destruct (live_vw _ _ W HL) as (b0 & a0 & x & HV).
  rewrite (clone_with_eq _ _ _ _ _ _ HV) in HC. inversion HC; subst c s'. clear HC.
  assert (Hc : vw (push s bits None (ext_copy K x)) (length (sols s)) = Some (bits, None, ext_copy K x)).
  { rewrite vw_push, Nat.eqb_refl; auto. }
  split; [unfold live in HL; lia|]. split; [apply shows_vw; eauto|].
  split; [rewrite (fitness_eq _ _ _ _ _ Hc); reflexivity|].
  intros b1 a1 HS. apply shows_vw in HS as (x1 & HS). apply shows_vw; exists x1. rewrite vw_push; auto.
  destruct (Nat.eqb_spec r (length (sols s))); [unfold live in HL; lia|exact HS].
Qed.

(* ----- padding ----- *)
Lemma random_bits_eq {K} n p (s : hst K) :
  exists bits g, random_bits n p s = (Ok bits, with_r s g) /\ length bits = n /\
                 bits = map (fun u => qle u p) (fst (randoms n (hrng s))).
Proof.
  unfold random_bits, bind, rnd1, rnd. pose proof (randoms_length n (hrng s)) as H.
  destruct (randoms n (hrng s)) as [us g]. eexists _, _. split; [reflexivity|]. rewrite map_length. auto.
Qed.

Lemma init_pad_vw {K} i n r (s : hst K) bits a x :
  wf s -> vw s r = Some (bits, a, x) -> (length bits <= n)%nat ->
  exists s' bits', init_pad i n r s = (Ok r, s') /\ wf s' /\ length (sols s') = length (sols s) /\ padded i n bits bits' /\
    forall j, vw s' j = if Nat.eqb j r then Some (bits', a, x) else vw s j.
Proof.
  intros W HV HL. pose proof (vw_live _ _ _ HV) as Hl. destruct i as [|p].
  - exists (rebound s r (bits ++ repeat false (n - length bits)) a x), (bits ++ repeat false (n - length bits)).
    cbn [init_pad]. unfold pad_zero, bind. rewrite (genome_eq _ _ _ _ _ HV).
    destruct (Nat.ltb_spec n (length bits)); [lia|]. rewrite (set_genome_eq _ _ _ _ _ _ HV).
    split; [reflexivity|]. split; [apply wf_rebound; auto|]. split; [simpl; apply update_length|]. split.
    + eexists; split; [reflexivity|]. rewrite app_length, repeat_length. split; [lia|reflexivity].
    + intros j. apply vw_rebound; auto.
  - cbn [init_pad]. unfold bind. rewrite (genome_eq _ _ _ _ _ HV).
    destruct (Nat.ltb_spec n (length bits)); [lia|].
    destruct (random_bits_eq (n - length bits) p s) as (nb & g & -> & HLn & _).
    assert (HV' : vw (with_r s g) r = Some (bits, a, x)) by exact HV.
    rewrite (set_genome_eq _ _ _ _ _ _ HV'). exists (rebound (with_r s g) r (bits ++ nb) a x), (bits ++ nb).
    split; [reflexivity|]. split; [apply wf_rebound; auto|]. split; [simpl; apply update_length|]. split.
    + eexists; split; [reflexivity|]. rewrite app_length. split; [lia|discriminate].
    + intros j. rewrite vw_rebound; auto.
Qed.

Lemma padding {K} i r n (s : hst K) bits a :
  built s -> shows s r bits a -> (length bits <= n)%nat ->
  exists s' bits', init_pad i n r s = (Ok r, s') /\ shows s' r bits' a /\ padded i n bits bits' /\
    forall q b c, q <> r -> shows s q b c -> shows s' q b c.
Proof.
  intros HB HS HL. apply shows_vw in HS as (x & HS). pose proof (built_wf _ HB) as W.
  destruct (init_pad_vw i n r s bits a x W HS HL) as (s' & bits' & HE & W' & _ & HP & HV).
  exists s', bits'. split; auto. split; [apply shows_vw; exists x; rewrite HV, Nat.eqb_refl; auto|]. split; auto.
  intros q b c Hq HQ. apply shows_vw in HQ as (y & HQ). apply shows_vw; exists y. rewrite HV.
  destruct (Nat.eqb_spec q r); [congruence|auto].
Qed.

(* the rules selected before and after, when the pool grew from pool to pool ++ new *)
Lemma padded_rules {L} i (pool new : list (rule L)) bits bits' :
  length bits = length pool -> padded i (length (pool ++ new)) bits bits' ->
  exists rs rs' added, subpopulation L bits pool = Ok rs /\ subpopulation L bits' (pool ++ new) = Ok rs' /\
    rs' = rs ++ added /\ incl added new /\ (i = ZeroInit -> added = []).
Proof.
  intros HL (extra & -> & HL' & HZ). rewrite app_length in HL'. rewrite app_length in HL'.
  exists (compress pool bits), (compress (pool ++ new) (bits ++ extra)), (compress new extra).
  unfold subpopulation. rewrite HL, Nat.eqb_refl. cbn [assert_ rbind].
  replace (Nat.eqb (length (bits ++ extra)) (length (pool ++ new))) with true
    by (symmetry; apply Nat.eqb_eq; rewrite !app_length; lia).
  cbn [assert_ rbind]. split; auto. split; auto. split; [apply compress_app; auto|]. split.
  - intros q Hq. apply compress_In in Hq. exact Hq.
  - intros Hi. rewrite (HZ Hi). apply compress_zeros.
Qed.
Lemma pad_shrunk {K} i n r (s : hst K) bits a :
  built s -> shows s r bits a -> (n < length bits)%nat -> fst (init_pad i n r s) = Raise ValueError.
Proof.
  intros HB HS HL. apply shows_vw in HS as (x & HS).
  destruct i; cbn [init_pad]; unfold pad_zero, bind; rewrite (genome_eq _ _ _ _ _ HS);
    destruct (Nat.ltb_spec n (length bits)); try lia; reflexivity.
Qed.


(* ----- a concrete heap for the examples ----- *)
Definition ex_env : env mean_learner :=
  mkEnv [fitted_rule 0 1 1 1 1; fitted_rule 0 1 1 2 2; fitted_rule 2 3 1 1 1] [[0]] [1] (mkMixing KeepAll ExpAsIs 1)
    (fun e c n => Fin (1 - e - qofnat c)).
Definition ex_heap : hst plain :=
  run_ops [HNew [true; false; true]; HFit 0 ex_env] (mkH [] [] (mkRng (fun _ => 0) 0)).
