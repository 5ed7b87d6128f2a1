(* Bounds, seeds and early stopping of one call of fit; two calls compared. *)
From Coq Require Import Lia.
From Verif Require Import PyNum PyList PyMon PyRng L_Num L_List M_Matching M_Rule M_Mixing M_Fit S_Fit L_Fit L_FitProps.

Lemma forall2_len {A B} (P : A -> B -> Prop) l m : Forall2 P l m -> length l = length m.
Proof. induction 1; cbn; congruence. Qed.
Section Bounds.
Variable L : learner.
Variables (D : discovery L) (C : composition L) (G : logger L).
Notation RD := (recorded_d D).
Notation RC := (recorded_c C).
Notation est := (est RD RC G).
Variables (p : params) (os : Z) (X : matrix) (y : targets) (e : est).
Hypothesis HR : ready D C G p X y.
Notation z := (root_seed os (random_state p)).

(* ----- C38 ----- *)
Lemma found_bounded (calls : list (dcall L)) : modest D ->
  Forall (fun c => exists st, d_out c = fst (drun D X y (d_pool c) (d_elite c) (d_n c) (d_seed c) st)) calls ->
  (length (found calls) <= fold_right Nat.add 0 (map d_n calls))%nat.
Proof.
  intros HM H. apply found_le. induction H as [|c calls [st HC] H IH]; [constructor|]. cbn [map]. constructor; auto.
  unfold out_of. destruct (d_out c) as [rs|x]; [|cbn; lia]. eapply HM. symmetry. exact HC.
Qed.
Lemma Forall_firstn {A} (P : A -> Prop) k l : Forall P l -> Forall P (firstn k l).
Proof. intros H. revert k. induction H; intros [|k]; cbn; constructor; auto. Qed.
Lemma sum_firstn k : forall l, (fold_right Nat.add 0 (firstn k l) <= fold_right Nat.add 0 l)%nat.
Proof. induction k as [|k IH]; intros [|a l]; cbn; try lia. specialize (IH l). lia. Qed.
Lemma asked_at_most k0 s0 nd nc (e' : est) : rcd L D C G p z X y k0 s0 nd nc e' -> (fold_right Nat.add 0 (map d_n (dcalls e')) <= n_initial p + n_iter p * n_rules p)%nat.
Proof.
  intros H. rewrite (rc_ns _ _ _ _ _ _ _ _ _ _ _ _ _ H), sum_app, !sum_repeat. pose proof (rc_k0 _ _ _ _ _ _ _ _ _ _ _ _ _ H). pose proof (rc_nd _ _ _ _ _ _ _ _ _ _ _ _ _ H). nia.
Qed.
Lemma bounded r (e' : est) : modest D -> fit p os false X y e = (r, e') ->
  (length (pool e') <= n_initial p + n_iter p * n_rules p)%nat /\
  forall c, In c (ccalls e') -> (length (c_pool c) <= c_max c)%nat /\ c_max c = (n_initial p + n_iter p * n_rules p)%nat.
Proof.
  intros HM HE. destruct (any_rcd L D C G p os X y e HR r e' HE) as (k0 & nd & nc & _ & _ & _ & _ & H).
  pose proof (rc_real _ _ _ _ _ _ _ _ _ _ _ _ _ H) as HRe. pose proof (asked_at_most _ _ _ _ _ H) as HA. split.
  - rewrite (rc_pool _ _ _ _ _ _ _ _ _ _ _ _ _ H). pose proof (found_bounded _ HM HRe). lia.
  - intros c HC. apply In_nth_error in HC as [k HC]. destruct (rc_cgrown _ _ _ _ _ _ _ _ _ _ _ _ _ H k c HC) as [H1 H2].
    split; [|rewrite H2; lia]. rewrite H1, H2. pose proof (found_bounded _ HM (Forall_firstn _ (k0 + S k) _ HRe)) as HB.
    rewrite <- firstn_map in HB. pose proof (sum_firstn (k0 + S k) (map d_n (dcalls e'))). lia.
Qed.

(* ----- C39: streams ----- *)
Lemma streams r (e' : est) : n_initial p = 0%nat -> fit p os false X y e = (r, e') ->
  (forall k c, nth_error (dcalls e') k = Some c -> d_seed c = mkSeed (child_stream z (2 * k)) 0) /\
  (forall k c, nth_error (ccalls e') k = Some c -> c_seed c = mkSeed (child_stream z (2 * k + 1)) 0).
Proof.
  intros HN HE. destruct (any_rcd L D C G p os X y e HR r e' HE) as (k0 & nd & nc & _ & _ & _ & HK & H). specialize (HK HN). subst k0. split; intros k c HC.
  - pose proof (rc_fresh_calls _ _ _ _ _ _ _ _ _ _ _ _ _ H k c eq_refl HC) as HS. pose proof (rc_dstreams _ _ _ _ _ _ _ _ _ _ _ _ _ H) as HD.
    assert (HL : (k < nd)%nat) by (rewrite <- (Nat.add_0_l nd), <- (rc_dlen _ _ _ _ _ _ _ _ _ _ _ _ _ H); apply nth_error_Some; congruence).
    assert (HK : nth_error (map (fun c => sstream (d_seed c)) (dcalls e')) k = Some (sstream (d_seed c))) by (rewrite nth_error_map, HC; reflexivity).
    rewrite HD in HK. unfold streams_d in HK. cbn [repeat app] in HK. rewrite nth_error_map_seq in HK by auto. injection HK as HK.
    destruct (d_seed c) as [s1 s2]. cbn in *. congruence.
  - pose proof (rc_cstreams _ _ _ _ _ _ _ _ _ _ _ _ _ H) as HD.
    assert (HL : (k < nc)%nat) by (rewrite <- (rc_clen _ _ _ _ _ _ _ _ _ _ _ _ _ H); apply nth_error_Some; congruence).
    assert (HK : nth_error (map c_seed (ccalls e')) k = Some (c_seed c)) by (rewrite nth_error_map, HC; reflexivity).
    rewrite HD in HK. unfold fresh_c in HK. rewrite nth_error_map_seq in HK by auto. congruence.
Qed.
Lemma child_inj (v : Z) a b : child_stream v a = child_stream v b -> a = b.
Proof. unfold child_stream. intros H. injection H. auto. Qed.
Lemma streams_distinct r (e' : est) : n_initial p = 0%nat -> fit p os false X y e = (r, e') ->
  NoDup (map (fun c => sstream (d_seed c)) (dcalls e') ++ map (fun c => sstream (c_seed c)) (ccalls e')).
Proof.
  intros HN HE. destruct (any_rcd L D C G p os X y e HR r e' HE) as (k0 & nd & nc & _ & _ & _ & HK & H). specialize (HK HN). subst k0.
  rewrite (rc_dstreams _ _ _ _ _ _ _ _ _ _ _ _ _ H). unfold streams_d. cbn [repeat app].
  rewrite <- (map_map c_seed sstream), (rc_cstreams _ _ _ _ _ _ _ _ _ _ _ _ _ H). unfold fresh_c. rewrite map_map. cbn [sstream].
  rewrite <- (map_map (fun k => 2 * k)%nat (child_stream z)). rewrite <- (map_map (fun k => 2 * k + 1)%nat (child_stream z)). rewrite <- map_app.
  apply FinFun.Injective_map_NoDup; [intros a b; apply child_inj|].
  assert (HA : forall m, NoDup (map (fun k => 2 * k)%nat (seq 0 m))) by (intros m; apply FinFun.Injective_map_NoDup; [intros a b; lia|apply seq_NoDup]).
  assert (HB : forall m, NoDup (map (fun k => 2 * k + 1)%nat (seq 0 m))) by (intros m; apply FinFun.Injective_map_NoDup; [intros a b; lia|apply seq_NoDup]).
  clear -HA HB. specialize (HA nd). assert (HD : forall x, In x (map (fun k => 2 * k)%nat (seq 0 nd)) -> ~ In x (map (fun k => 2 * k + 1)%nat (seq 0 nc))).
  { intros x H1 H2. apply in_map_iff in H1 as (a & <- & _). apply in_map_iff in H2 as (b & H2 & _). lia. }
  revert HA HD. induction (map (fun k => 2 * k)%nat (seq 0 nd)) as [|a l IH]; intros HA HD; [apply HB|]. cbn. inversion HA; subst. constructor.
  - intros HI. apply in_app_or in HI as [HI|HI]; [auto|]. apply (HD a); [left; auto|auto].
  - apply IH; auto. intros x HX. apply HD. right. auto.
Qed.

(* ----- C40 ----- *)
Lemma stale_last (fs : list num) k : (k <= stale p fs)%nat -> last_all (fun f => nlt (Fin (delta p)) f = false) k fs.
Proof.
  revert k. induction fs as [|f fs IH] using rev_ind; intros k H.
  - cbn in H. exists [], []. split; auto. split; [cbn; lia|constructor].
  - rewrite stale_snoc in H. destruct k as [|k]; [exists (fs ++ [f]), []; rewrite app_nil_r; auto|].
    destruct (nlt (Fin (delta p)) f) eqn:EF; [lia|]. destruct (IH k) as (b & t & H1 & H2 & H3); [lia|]. exists b, (t ++ [f]). rewrite app_assoc, <- H1. split; auto.
    rewrite app_length, H2. cbn. split; [lia|]. apply Forall_app. auto.
Qed.
Lemma last_stale (fs : list num) k : last_all (fun f => nlt (Fin (delta p)) f = false) k fs -> (k <= stale p fs)%nat.
Proof.
  intros (b & t & -> & <- & H). induction t as [|f t IH] using rev_ind; [cbn; lia|]. apply Forall_app in H as [H1 H2]. inversion H2; subst.
  rewrite app_assoc, stale_snoc, H3, app_length. specialize (IH H1). cbn. lia.
Qed.
Lemma early_stop (e' : est) : fit p os false X y e = (Ok tt, e') -> is_error e' = false -> (0 < patience p)%Z ->
  exists fs, Forall2 elite_fitness (ccalls e') fs /\
    (length fs = n_iter p \/ last_all (fun f => nlt (Fin (delta p)) f = false) (Z.to_nat (patience p)) fs) /\
    (forall k, (k < length fs)%nat -> ~ last_all (fun f => nlt (Fin (delta p)) f = false) (Z.to_nat (patience p)) (firstn k fs)).
Proof.
  intros HE HN HP. pose proof (ready_end L D C G p os X y e HR) as H. rewrite HE in H. destruct H as (k0 & nd & nc & _ & [(_ & H & _)|(H & Hn & _ & _ & HS & _)]); [congruence|]. subst nc.
  assert (HC : forall fs k, (Z.of_nat (stale p (firstn k fs)) < patience p)%Z -> ~ last_all (fun f => nlt (Fin (delta p)) f = false) (Z.to_nat (patience p)) (firstn k fs)).
  { intros fs k HL HA. apply last_stale in HA. lia. }
  destruct HS as [[HS1 HS2]|HS].
  - destruct (HS2 HP) as (fs & HF & _ & HK). exists fs. split; auto. split.
    + left. rewrite <- HS1, <- (rc_clen _ _ _ _ _ _ _ _ _ _ _ _ _ H). symmetry. eapply forall2_len; eauto.
    + intros k HL. apply HC. apply HK. lia.
  - destruct HS as (_ & fs & HF & HST & HK). exists fs. split; auto. split; [right; apply stale_last; lia|]. intros k HL. apply HC. apply HK. lia.
Qed.
Lemma never_early (e' : est) : fit p os false X y e = (Ok tt, e') -> is_error e' = false -> (patience p <= 0)%Z -> length (ccalls e') = n_iter p.
Proof.
  intros HE HN HP. pose proof (ready_end L D C G p os X y e HR) as H. rewrite HE in H. destruct H as (k0 & nd & nc & _ & [(_ & H & _)|(H & Hn & _ & _ & HS & _)]); [congruence|]. subst nc.
  rewrite (rc_clen _ _ _ _ _ _ _ _ _ _ _ _ _ H). destruct HS as [[HS _]|[HS _]]; [auto|lia].
Qed.
End Bounds.

(* ----- C39: two fits compared ----- *)
Section Same.
Variable L : learner.
Variables (D : discovery L) (C : composition L) (G : logger L).
Notation est := (est D C G).
Implicit Types e : est.
Definition fitted e : est := set_status (is_error e) true e.
(* equal up to is_fitted_ *)
Definition like e1 e2 : Prop := fitted e1 = fitted e2.
Lemma like_fields e1 e2 : like e1 e2 <->
  (step e1 = step e2 /\ counter e1 = counter e2 /\ previous e1 = previous e2 /\ is_error e1 = is_error e2 /\ elitist e1 = elitist e2 /\ pool e1 = pool e2 /\
   dseeds e1 = dseeds e2 /\ cseeds e1 = cseeds e2 /\ disc e1 = disc e2 /\ compo e1 = compo e2 /\ logs e1 = logs e2 /\ max_len e1 = max_len e2).
Proof.
  unfold like, fitted, set_status. split.
  - intros H. injection H. intros. repeat split; assumption.
  - intros (H1 & H2 & H3 & H4 & H5 & H6 & H7 & H8 & H9 & H10 & H11 & H12). congruence.
Qed.
Lemma like_status a b e1 e2 : like e1 e2 -> set_status a b e1 = set_status a b e2.
Proof. rewrite like_fields. intros (H1 & H2 & H3 & H4 & H5 & H6 & H7 & H8 & H9 & H10 & H11 & H12). unfold set_status. congruence. Qed.
(* a step that neither reads nor writes is_fitted_ *)
Definition blind {A} (m : St est A) : Prop := forall e1 e2, like e1 e2 -> fst (m e1) = fst (m e2) /\ like (snd (m e1)) (snd (m e2)).
Lemma blind_bind {A B} (m : St est A) (f : A -> St est B) : blind m -> (forall a, blind (f a)) -> blind (bind m f).
Proof.
  intros HM HF e1 e2 H. destruct (HM e1 e2 H) as [H1 H2]. unfold bind. destruct (m e1) as [[a|x] s1], (m e2) as [[b|x2] s2]; cbn in H1, H2; try discriminate.
  - injection H1 as <-. apply HF. auto.
  - cbn. split; [congruence|auto].
Qed.
(* reading the estimator: anything that looks the same *)
Lemma blind_get {A} (f : est -> St est A) : (forall e0, blind (f e0)) -> (forall e1 e2, like e1 e2 -> f e1 = f e2) -> blind (bind get f).
Proof. intros H HE e1 e2 HL. unfold bind, get. rewrite (HE e1 e2 HL). apply H. exact HL. Qed.
Lemma blind_lift {A} (r : res A) : blind (lift r).
Proof. intros e1 e2 H. cbn. auto. Qed.
Lemma blind_ret {A} (a : A) : blind (ret a).
Proof. intros e1 e2 H. cbn. auto. Qed.
Lemma blind_assign (f : est -> est) : (forall e1 e2, like e1 e2 -> like (f e1) (f e2)) -> blind (assign f).
Proof. intros HF e1 e2 H. cbn. auto. Qed.
Ltac likely := intros ? ?; rewrite !like_fields; cbn; intuition congruence.
Ltac fields H := rewrite like_fields in H; destruct H as (H1 & H2 & H3 & H4 & H5 & H6 & H7 & H8 & H9 & H10 & H11 & H12).
Lemma like_best e1 e2 : like e1 e2 -> best e1 = best e2.
Proof. intros H. fields H. unfold best, the_compo. rewrite H10, H6. reflexivity. Qed.
Lemma blind_discover X y n : blind (discover X y n).
Proof.
  apply blind_get.
  - intros e0. apply blind_bind; [apply blind_lift|]. intros el. apply blind_bind; [apply blind_lift|]. intros d. apply blind_bind; [apply blind_lift|]. intros s.
    destruct (drun D X y (pool e0) el n s d) as [r [k d']]. apply blind_bind; [apply blind_assign; likely|]. intros _. apply blind_bind; [apply blind_assign; likely|]. intros _.
    apply blind_bind; [apply blind_lift|]. intros new. apply blind_assign; likely.
  - intros e1 e2 H. rewrite (like_best e1 e2 H). fields H. unfold the_disc. rewrite H1, H6, H7, H8, H9, H10. reflexivity.
Qed.
Lemma blind_compose X y : blind (compose_step X y).
Proof.
  apply blind_get.
  - intros e0. apply blind_bind; [apply blind_lift|]. intros c. apply blind_bind; [apply blind_lift|]. intros s.
    destruct (crun C X y (max_len e0) (pool e0) s c) as [r c']. apply blind_bind; [apply blind_assign; likely|]. intros _. apply blind_lift.
  - intros e1 e2 H. fields H. unfold the_compo. rewrite H1, H6, H8, H9, H10, H12. reflexivity.
Qed.
(* ... or that sets it to True when it reports a failure *)
Definition blind_or_set (m : St est bool) : Prop := blind m /\ forall e1 e2, like e1 e2 -> fst (m e1) = Ok true -> snd (m e1) = snd (m e2).
Lemma bos_catch m : blind m -> blind_or_set (catch m).
Proof.
  intros HM. assert (HB : forall e1 e2, like e1 e2 -> (fst (catch m e1) = fst (catch m e2) /\ like (snd (catch m e1)) (snd (catch m e2))) /\ (fst (catch m e1) = Ok true -> snd (catch m e1) = snd (catch m e2))).
  { intros e1 e2 H. destruct (HM e1 e2 H) as [H1 H2]. unfold catch. destruct (m e1) as [[a|x] s1], (m e2) as [[b|x2] s2]; cbn in H1, H2; try discriminate.
    - cbn. split; [auto|discriminate].
    - injection H1 as <-. destruct (python_exn x); cbn; [|split; [auto|discriminate]]. rewrite (like_status true true s1 s2 H2). split; [split; reflexivity|auto]. }
  split; [intros e1 e2 H; apply HB; auto|intros e1 e2 H; apply HB; auto].
Qed.
Lemma bos_bind {A} (m : St est A) (f : A -> St est bool) : blind m -> (forall a, blind_or_set (f a)) -> blind_or_set (bind m f).
Proof.
  intros HM HF. split; [apply blind_bind; auto; intros a; apply HF|]. intros e1 e2 H. destruct (HM e1 e2 H) as [H1 H2]. unfold bind.
  destruct (m e1) as [[a|x] s1], (m e2) as [[b|x2] s2]; cbn in H1, H2; try discriminate. injection H1 as <-. apply HF. auto.
Qed.
Lemma bos_then (m k : St est bool) : blind_or_set m -> blind_or_set k -> blind_or_set (bind m (fun failed => if failed then ret true else k)).
Proof.
  intros HM HK. split; [apply blind_bind; [apply HM|]; intros [|]; [apply blind_ret|apply HK]|]. intros e1 e2 H. destruct (proj1 HM e1 e2 H) as [H1 H2]. pose proof (proj2 HM e1 e2 H) as H3. unfold bind.
  destruct (m e1) as [[[|]|x] s1], (m e2) as [[[|]|x2] s2]; cbn in H1, H2, H3; try discriminate; cbn; auto. apply HK. auto.
Qed.
Lemma bos_false (m : St est bool) : blind m -> (forall e0, fst (m e0) <> Ok true) -> blind_or_set m.
Proof. intros H1 H2. split; auto. intros e1 e2 _ H. exfalso. eapply H2; eauto. Qed.
Lemma blind_check p : blind (check_early_stopping p).
Proof.
  unfold check_early_stopping. destruct (Z.ltb 0 (patience p)); [|apply blind_ret]. apply blind_get.
  - intros e0. apply blind_bind; [apply blind_lift|]. intros el. apply blind_bind; [apply blind_lift|]. intros b. cbv zeta.
    destruct (nlt (Fin (delta p)) _); apply blind_bind; try (apply blind_assign; likely); intros _; apply blind_ret.
  - intros e1 e2 H. rewrite (like_best e1 e2 H). fields H. rewrite H2, H3. reflexivity.
Qed.
Lemma bos_loop p X y : forall steps, blind_or_set (main_loop p X y steps).
Proof.
  induction steps as [|i steps IH]; [apply bos_false; [apply blind_ret|discriminate]|]. cbn [main_loop].
  apply bos_bind; [apply blind_assign; likely|]. intros _. apply bos_then.
  { apply bos_catch. destruct (Nat.eqb (n_rules p) 0); [apply (blind_lift (Raise TypeError))|apply blind_discover]. }
  apply bos_then; [apply bos_catch, blind_compose|].
  assert (HG : forall (f : est -> St est bool), (forall e0, blind_or_set (f e0)) -> (forall e1 e2, like e1 e2 -> f e1 = f e2) -> blind_or_set (bind get f)).
  { intros f HF HE. split; [apply blind_get; auto; intros; apply HF|]. intros e1 e2 H. unfold bind, get. rewrite (HE e1 e2 H). apply HF; auto. }
  apply HG.
  - intros e0. apply bos_bind; [apply blind_lift|]. intros l. apply bos_bind; [apply blind_lift|]. intros l'. apply bos_bind; [apply blind_assign; likely|]. intros _.
    apply bos_bind; [apply blind_check|]. intros [|]; [apply bos_false; [apply blind_ret|discriminate]|exact IH].
  - intros e1 e2 H. rewrite (like_best e1 e2 H). fields H. unfold the_logs, population, the_compo. rewrite H1, H6, H10, H11. reflexivity.
Qed.
Lemma finish_same clean X y e1 e2 : like e1 e2 -> fst (finish clean X y e1) = fst (finish clean X y e2) /\ (fst (finish clean X y e1) = Ok tt -> snd (finish clean X y e1) = snd (finish clean X y e2)).
Proof.
  intros H. unfold finish, bind, get, lift, assign. rewrite (like_best e1 e2 H).
  destruct (best e2) as [[b|]|x]; cbn [of_option]; [|split; [reflexivity|discriminate]..].
  assert (HE : set_status (is_error (set_elitist (Some (Learned b)) e1)) true (set_elitist (Some (Learned b)) e1) = set_status (is_error (set_elitist (Some (Learned b)) e2)) true (set_elitist (Some (Learned b)) e2)).
  { change (like (set_elitist (Some (Learned b)) e1) (set_elitist (Some (Learned b)) e2)). revert H. rewrite !like_fields. cbn. intuition congruence. }
  rewrite HE. auto.
Qed.
(* the state after preparation: only step_ and is_fitted_ survive *)
Lemma prepare_same p os1 os2 X y e1 e2 : (exists v, random_state p = IntSeed v) ->
  fst (prepare p os1 X y e1) = fst (prepare p os2 X y e2) /\
  (fst (prepare p os1 X y e1) = Ok tt -> like (set_step 0 (snd (prepare p os1 X y e1))) (set_step 0 (snd (prepare p os2 X y e2))) /\
     step (snd (prepare p os1 X y e1)) = step e1 /\ step (snd (prepare p os2 X y e2)) = step e2).
Proof.
  intros [v HV]. unfold prepare, bind, assign, lift. destruct (check_X_y X y) as [?|?]; [|cbn; split; [auto|discriminate]]. rewrite HV.
  destruct (check_random_state (IntSeed v)) as [?|?]; [|cbn; split; [auto|discriminate]]. change (seed_sequence os2 (IntSeed v)) with (seed_sequence os1 (IntSeed v)).
  destruct (seed_sequence os1 (IntSeed v)) as [?|?]; [|cbn; split; [auto|discriminate]]. destruct (dnew D X) as [?|?]; [|cbn; split; [auto|discriminate]].
  destruct (cnew C) as [?|?]; [|cbn; split; [auto|discriminate]]. destruct (linit G) as [?|?]; [|cbn; split; [auto|discriminate]]. cbn. split; auto. intros _. split; [reflexivity|auto].
Qed.
Lemma fit_split p os clean X y e : fit p os clean X y e =
  match prepare p os X y e with
  | (Ok _, s) => match (if Nat.ltb 0 (n_initial p) then discover_safely X y (n_initial p) else ret false) s with
                 | (Ok failed, s') => (if failed then ret tt else bind (main_loop p X y (seq 0 (n_iter p))) (fun failed => if failed then ret tt else finish clean X y)) s'
                 | (Raise x, s') => (Raise x, s') end
  | (Raise x, s) => (Raise x, s) end.
Proof. reflexivity. Qed.
Lemma fit_same p os1 os2 clean X y e1 e2 : (exists v, random_state p = IntSeed v) -> (n_initial p = 0%nat \/ step e1 = step e2) -> (0 < n_iter p)%nat ->
  fst (fit p os1 clean X y e1) = fst (fit p os2 clean X y e2) /\
  (fst (fit p os1 clean X y e1) = Ok tt -> snd (fit p os1 clean X y e1) = snd (fit p os2 clean X y e2)).
Proof.
  intros HV HI HN. destruct (prepare_same p os1 os2 X y e1 e2 HV) as [HP1 HP2]. rewrite !fit_split.
  destruct (prepare p os1 X y e1) as [[[]|x] s1], (prepare p os2 X y e2) as [[[]|x2] s2]; cbn [fst snd] in HP1, HP2; try discriminate.
  2:{ cbn. split; [congruence|discriminate]. }
  destruct (HP2 eq_refl) as (HL & HS1 & HS2). clear HP1 HP2.
  set (rest := bind (main_loop p X y (seq 0 (n_iter p))) (fun failed => if failed then ret tt else finish clean X y)).
  assert (HRest : forall a b, like (set_step 0 a) (set_step 0 b) -> fst (rest a) = fst (rest b) /\ (fst (rest a) = Ok tt -> snd (rest a) = snd (rest b))).
  { intros a b HAB.
    assert (HLoop : forall c : est, main_loop p X y (seq 0 (n_iter p)) c = main_loop p X y (seq 0 (n_iter p)) (set_step 0 c)).
    { intros c. destruct (n_iter p) as [|m]; [lia|]. cbn [seq main_loop]. unfold bind at 1 8, assign at 1 3. reflexivity. }
    unfold rest. unfold bind. rewrite (HLoop a), (HLoop b). destruct (bos_loop p X y (seq 0 (n_iter p))) as [HB1 HB2].
    destruct (HB1 _ _ HAB) as [H1 H2]. specialize (HB2 _ _ HAB).
    destruct (main_loop p X y (seq 0 (n_iter p)) (set_step 0 a)) as [[[|]|x] a'], (main_loop p X y (seq 0 (n_iter p)) (set_step 0 b)) as [[[|]|x2] b']; cbn [fst snd] in H1, H2, HB2; try discriminate.
    - cbn. split; auto.
    - apply finish_same. auto.
    - cbn. split; [congruence|discriminate]. }
  clearbody rest. destruct (Nat.ltb_spec 0 (n_initial p)) as [HI'|HI'].
  - destruct HI as [HI|HI]; [lia|]. assert (HLL : like s1 s2).
    { revert HL. rewrite !like_fields. cbn. intuition congruence. }
    assert (HB : blind_or_set (discover_safely X y (n_initial p))).
    { apply bos_catch. destruct (Nat.eqb (n_initial p) 0); [apply (blind_lift (Raise TypeError))|apply blind_discover]. }
    destruct (proj1 HB _ _ HLL) as [H1 H2]. pose proof (proj2 HB _ _ HLL) as H3.
    destruct (discover_safely X y (n_initial p) s1) as [[[|]|x] a'], (discover_safely X y (n_initial p) s2) as [[[|]|x2] b']; cbn [fst snd] in H1, H2, H3; try discriminate.
    + cbn. split; [reflexivity|intros _; apply H3; reflexivity].
    + apply HRest. revert H2. rewrite !like_fields. cbn. intuition congruence.
    + cbn. split; [congruence|discriminate].
  - cbn [ret]. apply HRest. auto.
Qed.
End Same.
