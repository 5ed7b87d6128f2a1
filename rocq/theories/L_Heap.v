(* The heap of solutions: how each operation changes what the objects show. *)
From Coq Require Import Lia.
From Verif Require Import PyNum PyList PyMon PyRng L_List M_Matching M_Rule M_Mixing M_Solution S_Solution.

Section Heap.
Context {K : skind}.
Implicit Types s : hst K.

Definition vw s (r : nat) : option (list bool * option satts * ext K) :=
  match nth_error (sols s) r with
  | Some o => match nth_error (garr s) (gref o) with Some bits => Some (bits, satt o, sext o) | None => None end
  | None => None
  end.

Lemma shows_vw s r bits a : shows s r bits a <-> exists x, vw s r = Some (bits, a, x).
Proof.
  unfold shows, vw. split.
  - intros (o & -> & -> & <-). eauto.
  - intros (x & H). destruct (nth_error (sols s) r) as [o|]; [|discriminate].
    destruct (nth_error (garr s) (gref o)) as [b|] eqn:E; [|discriminate]. inversion H; subst. eauto.
Qed.
Lemma vw_live s r v : vw s r = Some v -> live s r.
Proof.
  unfold vw, live. destruct (nth_error (sols s) r) eqn:E; [|discriminate]. intros _.
  apply nth_error_Some. congruence.
Qed.
Lemma live_vw s r : wf s -> live s r -> exists bits a x, vw s r = Some (bits, a, x).
Proof.
  intros [W _] H. unfold vw. apply nth_error_Some in H. destruct (nth_error (sols s) r) as [o|] eqn:E; [|congruence].
  specialize (W _ _ E). apply nth_error_Some in W. destruct (nth_error (garr s) (gref o)) as [b|]; [|congruence]. eauto.
Qed.
Lemma vw_inv s r bits a x : vw s r = Some (bits, a, x) ->
  exists o, nth_error (sols s) r = Some o /\ nth_error (garr s) (gref o) = Some bits /\ satt o = a /\ sext o = x.
Proof.
  unfold vw. destruct (nth_error (sols s) r) as [o|]; [|discriminate].
  destruct (nth_error (garr s) (gref o)) as [b|] eqn:E; [|discriminate]. intros H; inversion H; subst. eauto.
Qed.

(* ----- the state transformers ----- *)
Definition push s (bits : list bool) (a : option satts) (x : ext K) : hst K :=
  mkH (garr s ++ [bits]) (sols s ++ [mkSol (length (garr s)) a x]) (hrng s).
Definition junk s (bits : list bool) : hst K := mkH (garr s ++ [bits]) (sols s) (hrng s).
Definition with_r s (g : rng) : hst K := mkH (garr s) (sols s) g.
Definition rebound s r (bits : list bool) (a : option satts) (x : ext K) : hst K :=
  mkH (garr s ++ [bits]) (update (sols s) r (mkSol (length (garr s)) a x)) (hrng s).
Definition reset s r (f : sol K -> sol K) : hst K :=
  match nth_error (sols s) r with Some o => mkH (garr s) (update (sols s) r (f o)) (hrng s) | None => s end.

Lemma nth_error_snoc {A} (l : list A) x i :
  nth_error (l ++ [x]) i = if Nat.eqb i (length l) then Some x else nth_error l i.
Proof.
  destruct (Nat.eqb_spec i (length l)) as [->|H].
  - rewrite nth_error_app2, Nat.sub_diag by lia. reflexivity.
  - destruct (Nat.lt_ge_cases i (length l)) as [H1|H1].
    + apply nth_error_app1; exact H1.
    + assert (H2 : nth_error l i = None) by (apply nth_error_None; exact H1). rewrite H2.
      apply nth_error_None. rewrite app_length; simpl; lia.
Qed.
Lemma update_nth {A} (l : list A) i j x :
  nth_error (update l i x) j = if Nat.eqb i j then (match nth_error l j with Some _ => Some x | None => None end) else nth_error l j.
Proof.
  destruct (Nat.eqb_spec i j) as [->|H]; [|apply update_nth_other; exact H].
  destruct (nth_error l j) eqn:E.
  - apply update_nth_same. apply nth_error_Some; congruence.
  - rewrite update_oob; [exact E|]. apply nth_error_None; exact E.
Qed.

Lemma vw_junk s bits r : wf s -> vw (junk s bits) r = vw s r.
Proof.
  intros [W _]. unfold vw, junk; cbn [sols garr]. destruct (nth_error (sols s) r) as [o|] eqn:E; auto.
  rewrite nth_error_app1 by eauto. reflexivity.
Qed.
Lemma wf_junk s bits : wf s -> wf (junk s bits).
Proof.
  intros [W1 W2]; split; unfold junk; cbn [sols garr]; [|exact W2].
  intros r o H. specialize (W1 _ _ H). rewrite app_length; simpl; lia.
Qed.
Lemma vw_with_r s g r : vw (with_r s g) r = vw s r. Proof. reflexivity. Qed.
Lemma wf_with_r s g : wf s -> wf (with_r s g). Proof. intros H; exact H. Qed.
Lemma vw_push s bits a x r : wf s ->
  vw (push s bits a x) r = if Nat.eqb r (length (sols s)) then Some (bits, a, x) else vw s r.
Proof.
  intros [W _]. unfold vw, push; cbn [sols garr]. rewrite nth_error_snoc.
  destruct (Nat.eqb_spec r (length (sols s))) as [->|H].
  - cbn. rewrite nth_error_snoc, Nat.eqb_refl. reflexivity.
  - destruct (nth_error (sols s) r) as [o|] eqn:E; auto. rewrite nth_error_app1 by eauto. reflexivity.
Qed.
Lemma wf_push s bits a x : wf s -> wf (push s bits a x).
Proof.
  intros [W1 W2]; split; unfold push; cbn [sols garr].
  - intros r o. rewrite nth_error_snoc, app_length. simpl. destruct (Nat.eqb _ _); intros H.
    + inversion H; subst; simpl; lia.
    + specialize (W1 _ _ H). lia.
  - intros r1 r2 o1 o2. rewrite !nth_error_snoc.
    destruct (Nat.eqb_spec r1 (length (sols s))), (Nat.eqb_spec r2 (length (sols s))); intros H1 H2 HG.
    + congruence.
    + inversion H1; subst; simpl in HG. specialize (W1 _ _ H2). lia.
    + inversion H2; subst; simpl in HG. specialize (W1 _ _ H1). lia.
    + eauto.
Qed.
Lemma vw_rebound s r bits a x i : wf s -> live s r ->
  vw (rebound s r bits a x) i = if Nat.eqb i r then Some (bits, a, x) else vw s i.
Proof.
  intros [W _] HL. unfold vw, rebound; cbn [sols garr]. rewrite update_nth, Nat.eqb_sym.
  destruct (Nat.eqb_spec i r) as [->|H].
  - apply nth_error_Some in HL. destruct (nth_error (sols s) r); [|congruence]. cbn.
    rewrite nth_error_snoc, Nat.eqb_refl. reflexivity.
  - destruct (nth_error (sols s) i) as [o|] eqn:E; auto. rewrite nth_error_app1 by eauto. reflexivity.
Qed.
Lemma wf_rebound s r bits a x : wf s -> wf (rebound s r bits a x).
Proof.
  intros [W1 W2]; split; unfold rebound; cbn [sols garr].
  - intros i o. rewrite update_nth, app_length. simpl. destruct (Nat.eqb_spec r i) as [->|H].
    + destruct (nth_error (sols s) i); [|discriminate]. intros H; inversion H; subst; simpl; lia.
    + intros Hi. specialize (W1 _ _ Hi). lia.
  - intros r1 r2 o1 o2. rewrite !update_nth.
    destruct (Nat.eqb_spec r r1) as [<-|H1], (Nat.eqb_spec r r2) as [<-|H2]; auto.
    + destruct (nth_error (sols s) r) eqn:E; [|discriminate]. intros Ha Hb HG. inversion Ha; subst; simpl in HG.
      specialize (W1 _ _ Hb). lia.
    + destruct (nth_error (sols s) r) eqn:E; [|discriminate].
      intros Ha Hb HG. inversion Hb; subst; simpl in HG. specialize (W1 _ _ Ha). lia.
    + eauto.
Qed.
Lemma vw_reset s r f i : (forall o, gref (f o) = gref o) -> wf s ->
  vw (reset s r f) i = if Nat.eqb i r then (match nth_error (sols s) r with
                                            | Some o => match vw s r with Some (b, _, _) => Some (b, satt (f o), sext (f o)) | None => None end
                                            | None => None end)
                       else vw s i.
Proof.
  intros HF W. unfold reset. destruct (nth_error (sols s) r) as [o|] eqn:E.
  - unfold vw; cbn [sols garr]. rewrite update_nth, Nat.eqb_sym. destruct (Nat.eqb_spec i r) as [->|H]; auto.
    rewrite E, HF. destruct (nth_error (garr s) (gref o)); reflexivity.
  - destruct (Nat.eqb_spec i r) as [->|H]; auto. unfold vw. rewrite E. reflexivity.
Qed.
Lemma wf_reset s r f : (forall o, gref (f o) = gref o) -> wf s -> wf (reset s r f).
Proof.
  intros HF [W1 W2]. unfold reset. destruct (nth_error (sols s) r) as [o|] eqn:E; [|split; auto].
  assert (HE : forall i o', nth_error (update (sols s) r (f o)) i = Some o' ->
               exists o0, nth_error (sols s) i = Some o0 /\ gref o' = gref o0).
  { intros i o'. rewrite update_nth. destruct (Nat.eqb_spec r i) as [<-|H]; eauto.
    rewrite E. intros H; inversion H; subst. eauto. }
  split; cbn [sols garr].
  - intros i o' H. apply HE in H as (o0 & H & ->). eauto.
  - intros r1 r2 o1 o2 H1 H2 HG. apply HE in H1 as (p1 & H1 & E1). apply HE in H2 as (p2 & H2 & E2).
    apply (W2 _ _ _ _ H1 H2). congruence.
Qed.
Lemma vw_write s r o f i : wf s -> nth_error (sols s) r = Some o ->
  vw (mkH (match nth_error (garr s) (gref o) with Some b => update (garr s) (gref o) (f b) | None => garr s end) (sols s) (hrng s)) i
  = if Nat.eqb i r then (match vw s r with Some (b, a, x) => Some (f b, a, x) | None => None end) else vw s i.
Proof.
  intros [W1 W2] E. pose proof (W1 _ _ E) as HL. apply nth_error_Some in HL.
  destruct (nth_error (garr s) (gref o)) as [b|] eqn:Eb; [|congruence].
  unfold vw; cbn [sols garr]. destruct (Nat.eqb_spec i r) as [->|H].
  - rewrite E, update_nth, Nat.eqb_refl, Eb. reflexivity.
  - destruct (nth_error (sols s) i) as [o'|] eqn:E'; auto.
    rewrite update_nth. destruct (Nat.eqb_spec (gref o) (gref o')) as [HG|HG]; auto.
    exfalso. apply H. symmetry. exact (W2 _ _ _ _ E E' HG).
Qed.
Lemma wf_write s a b : wf s -> wf (mkH (update (garr s) a b) (sols s) (hrng s)).
Proof.
  intros [W1 W2]; split; cbn [sols garr]; auto. intros r o H. rewrite update_length. eauto.
Qed.

(* ----- the operations, equationally ----- *)
Lemma get_sol_eq s r o : nth_error (sols s) r = Some o -> get_sol r s = (Ok o, s).
Proof. unfold get_sol. intros ->. reflexivity. Qed.
Lemma genome_eq s r bits a x : vw s r = Some (bits, a, x) -> genome r s = (Ok bits, s).
Proof.
  intros H. apply vw_inv in H as (o & H1 & H2 & _). unfold genome, bind, get_arr. rewrite (get_sol_eq _ _ _ H1), H2. reflexivity.
Qed.
Lemma get_satt_eq s r bits a x : vw s r = Some (bits, a, x) -> get_satt r s = (of_option AttributeError a, s).
Proof.
  intros H. apply vw_inv in H as (o & H1 & _ & <- & _). unfold get_satt, bind. rewrite (get_sol_eq _ _ _ H1). reflexivity.
Qed.
Lemma fitness_eq s r bits a x : vw s r = Some (bits, a, x) ->
  fitness r s = (match a with Some a' => Ok (sfitness a') | None => Raise AttributeError end, s).
Proof. intros H. unfold fitness, bind. rewrite (get_satt_eq _ _ _ _ _ H). destruct a; reflexivity. Qed.
Lemma get_ext_eq s r bits a x : vw s r = Some (bits, a, x) -> get_ext r s = (Ok x, s).
Proof.
  intros H. apply vw_inv in H as (o & H1 & _ & _ & <-). unfold get_ext, bind. rewrite (get_sol_eq _ _ _ H1). reflexivity.
Qed.
Lemma new_sol_eq s bits : new_sol bits s = (Ok (length (sols s)), push s bits None (ext0 K)).
Proof. reflexivity. Qed.
Lemma clone_with_eq s r bits0 a x bits : vw s r = Some (bits0, a, x) ->
  clone_with r bits s = (Ok (length (sols s)), push s bits None (ext_copy K x)).
Proof. intros H. unfold clone_with, bind. rewrite (get_ext_eq _ _ _ _ _ H). reflexivity. Qed.
Lemma clone_eq s r bits a x : wf s -> vw s r = Some (bits, Some a, x) ->
  clone r s = (Ok (length (sols s)), push s bits (Some a) (ext_copy K x)).
Proof.
  intros W H. unfold clone, bind. rewrite (genome_eq _ _ _ _ _ H). unfold alloc_arr.
  assert (H' : vw (junk s bits) r = Some (bits, Some a, x)) by (rewrite vw_junk; auto).
  fold (junk s bits). rewrite (get_satt_eq _ _ _ _ _ H'). cbn [of_option]. rewrite (get_ext_eq _ _ _ _ _ H'). reflexivity.
Qed.
Lemma clone_unfitted s r bits x : wf s -> vw s r = Some (bits, None, x) ->
  clone r s = (Raise AttributeError, junk s bits).
Proof.
  intros W H. unfold clone, bind. rewrite (genome_eq _ _ _ _ _ H). unfold alloc_arr.
  assert (H' : vw (junk s bits) r = Some (bits, None, x)) by (rewrite vw_junk; auto).
  fold (junk s bits). rewrite (get_satt_eq _ _ _ _ _ H'). reflexivity.
Qed.
Lemma set_genome_eq s r bits0 a x bits : vw s r = Some (bits0, a, x) ->
  set_genome r bits s = (Ok tt, rebound s r bits a x).
Proof.
  intros H. apply vw_inv in H as (o & H1 & _ & <- & <-). unfold set_genome, bind. rewrite (get_sol_eq _ _ _ H1). reflexivity.
Qed.
Lemma set_ext_eq s r bits a x x' : vw s r = Some (bits, a, x) ->
  set_ext r x' s = (Ok tt, reset s r (fun o => mkSol (gref o) (satt o) x')).
Proof.
  intros H. apply vw_inv in H as (o & H1 & _). unfold set_ext, bind, reset. rewrite (get_sol_eq _ _ _ H1), H1. reflexivity.
Qed.
Lemma write_genome_eq s r bits a x f : wf s -> vw s r = Some (bits, a, x) ->
  exists s', write_genome r f s = (Ok tt, s') /\ wf s' /\ length (sols s') = length (sols s) /\
    forall i, vw s' i = if Nat.eqb i r then Some (f bits, a, x) else vw s i.
Proof.
  intros W H. pose proof H as H0. apply vw_inv in H as (o & H1 & H2 & _).
  eexists. split; [|split; [|split]].
  - unfold write_genome, bind, get_arr. rewrite (get_sol_eq _ _ _ H1), H2. cbn [of_option]. reflexivity.
  - cbn [snd]. apply wf_write; auto.
  - reflexivity.
  - intros i. pose proof (vw_write s r o f i W H1) as HV. rewrite H2, H0 in HV. exact HV.
Qed.
Lemma fit_eq {L} (E : env L) s r bits a x : wf s -> vw s r = Some (bits, a, x) ->
  match sol_fit L (emix E) (efit E) bits (epool E) (eX E) (ey E) (hrng s) with
  | (Ok a', g') => exists s', fit E r s = (Ok r, s') /\ wf s' /\ length (sols s') = length (sols s) /\ hrng s' = g' /\
        forall i, vw s' i = if Nat.eqb i r then Some (bits, Some a', x) else vw s i
  | (Raise e, g') => fit E r s = (Raise e, with_r s g')
  end.
Proof.
  intros W H. unfold fit, bind. rewrite (genome_eq _ _ _ _ _ H). unfold rnd.
  destruct (sol_fit L (emix E) (efit E) bits (epool E) (eX E) (ey E) (hrng s)) as [[a'|e] g']; [|reflexivity].
  fold (with_r s g'). pose proof H as H0. apply vw_inv in H0 as (o & H1 & H2 & Ha & Hx).
  assert (HV : vw (with_r s g') r = Some (bits, a, x)) by exact H.
  rewrite (get_sol_eq (with_r s g') r o H1). cbn [put_sol ret].
  exists (reset (with_r s g') r (fun o => mkSol (gref o) (Some a') (sext o))).
  assert (HR : reset (with_r s g') r (fun o => mkSol (gref o) (Some a') (sext o))
               = mkH (garr s) (update (sols s) r (mkSol (gref o) (Some a') (sext o))) g').
  { unfold reset. cbn [with_r sols]. rewrite H1. reflexivity. }
  split; [rewrite HR; reflexivity|]. split; [apply wf_reset; auto|].
  split; [rewrite HR; cbn [sols]; apply update_length|]. split; [rewrite HR; reflexivity|].
  intros i. rewrite vw_reset; auto. destruct (Nat.eqb i r); auto.
  change (sols (with_r s g')) with (sols s). rewrite H1. cbn [satt sext]. rewrite HV. rewrite Hx. reflexivity.
Qed.
Lemma not_live s r : wf s -> ~ live s r -> vw s r = None /\ nth_error (sols s) r = None.
Proof.
  intros W H. assert (HN : nth_error (sols s) r = None) by (apply nth_error_None; unfold live in H; lia).
  split; auto. unfold vw. rewrite HN. reflexivity.
Qed.
End Heap.
