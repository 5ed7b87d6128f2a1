(* Properties of one call of fit, from its course. *)
From Coq Require Import Lia.
From Verif Require Import PyNum PyList PyMon PyRng L_Num L_List M_Matching M_Rule M_Mixing M_Fit S_Fit L_Fit.

(* ----- which attributes the parts of fit touch ----- *)
Section Touch.
Variable L : learner.
Variables (D : discovery L) (C : composition L) (G : logger L).
Implicit Types e : est D C G.
Lemma discover_err X y n e : is_error (snd (discover X y n e)) = is_error e.
Proof.
  unfold discover, bind, get, lift, assign. destruct (best e) as [el|x]; [|reflexivity]. destruct (the_disc e) as [d|x]; [|reflexivity].
  destruct (of_option IndexError (nth_error (dseeds e) (step e))) as [s|x]; [|reflexivity]. destruct (drun D X y (pool e) el n s d) as [[r|x] [k d']]; reflexivity.
Qed.
Lemma compose_err X y e : is_error (snd (compose_step X y e)) = is_error e.
Proof.
  unfold compose_step, bind, get, lift, assign. destruct (the_compo e) as [c|x]; [|reflexivity].
  destruct (of_option IndexError (nth_error (cseeds e) (step e))) as [s|x]; [|reflexivity]. destruct (crun C X y (max_len e) (pool e) s c) as [r c']; reflexivity.
Qed.
Lemma catch_err (m : St (est D C G) unit) e : (forall e0, is_error (snd (m e0)) = is_error e0) ->
  match catch m e with (Ok b, e') => is_error e' = (b || is_error e)%bool | _ => True end.
Proof.
  intros H. unfold catch. specialize (H e). destruct (m e) as [[[]|x] e']; cbn in *; auto. destruct (python_exn x); auto.
Qed.
Lemma discover_safely_err X y n e : match discover_safely X y n e with (Ok b, e') => is_error e' = (b || is_error e)%bool | _ => True end.
Proof. apply catch_err. intros e0. destruct (Nat.eqb n 0); [reflexivity|apply discover_err]. Qed.
Lemma check_err p e : is_error (snd (check_early_stopping p e)) = is_error e.
Proof.
  unfold check_early_stopping. destruct (Z.ltb 0 (patience p)); [|reflexivity]. unfold bind, get, lift, assign, ret.
  destruct (best e) as [el|x]; [|reflexivity]. destruct (of_option AttributeError el) as [b|x]; [|reflexivity]. destruct (nlt (Fin (delta p)) _); reflexivity.
Qed.
Lemma loop_err p X y : forall steps e, match main_loop p X y steps e with (Ok b, e') => is_error e' = (b || is_error e)%bool | _ => True end.
Proof.
  induction steps as [|i steps IH]; intros e; [reflexivity|]. cbn [main_loop]. unfold bind at 1, assign at 1. unfold bind at 1.
  pose proof (discover_safely_err X y (n_rules p) (set_step i e)) as H1. destruct (discover_safely X y (n_rules p) (set_step i e)) as [[[|]|x] e1]; auto.
  unfold bind at 1. pose proof (catch_err (compose_step X y) e1 (compose_err X y)) as H2. unfold compose_safely. destruct (catch (compose_step X y) e1) as [[[|]|x] e2]; auto.
  unfold bind at 1. cbn [get]. unfold bind at 1, lift at 1. destruct (the_logs e2) as [l|x]; auto. unfold bind at 1, lift at 1.
  destruct (literation G X y (step e2) (pool e2) (population e2) (best e2) l) as [l'|x]; auto. unfold bind at 1, assign at 1. unfold bind at 1.
  pose proof (check_err p (set_logs (Some l') e2)) as H3. destruct (check_early_stopping p (set_logs (Some l') e2)) as [[[|]|x] e3]; auto.
  - cbn in *. congruence.
  - specialize (IH e3). destruct (main_loop p X y steps e3) as [[b|x] e4]; auto. cbn in *. rewrite IH. f_equal. congruence.
Qed.
Lemma finish_err clean X y e : match finish false X y e with (Ok _, e') => is_error e' = is_error e | _ => True end /\
  finish clean X y e = match finish false X y e with (Ok _, e') => if clean then cleanup e' else (Ok tt, e') | out => out end.
Proof.
  unfold finish, bind, get, lift, assign. destruct (best e) as [el|x]; [|auto]. destruct (of_option AttributeError el) as [b|x]; [|auto].
  destruct (the_logs _) as [l|x]; [|auto]. destruct (lfinal _ _ _ _ _ _) as [l'|x]; [|auto]. split; [reflexivity|destruct clean; reflexivity].
Qed.
Lemma prepare_err p os X y e : match prepare p os X y e with (Ok _, e') => is_error e' = false | _ => True end.
Proof.
  unfold prepare, bind, assign, lift. destruct (check_X_y X y) as [?|?]; [|auto]. destruct (check_random_state _) as [?|?]; [|auto].
  destruct (seed_sequence _ _) as [?|?]; [|auto]. destruct (dnew D X) as [?|?]; [|auto]. destruct (cnew C) as [?|?]; [|auto]. destruct (linit G) as [?|?]; [|auto]. reflexivity.
Qed.
(* fit with cleanup is fit and then cleanup, unless a component failed *)
Lemma fit_clean p os X y e : fit p os true X y e =
  match fit p os false X y e with (Ok _, e') => if is_error e' then (Ok tt, e') else cleanup e' | out => out end.
Proof.
  unfold fit. unfold bind at 1 4. pose proof (prepare_err p os X y e) as H0. destruct (prepare p os X y e) as [[[]|x] e0]; [|auto].
  unfold bind at 1 3.
  assert (H1 : match (if Nat.ltb 0 (n_initial p) then discover_safely X y (n_initial p) else ret false) e0 with (Ok b, e') => is_error e' = (b || is_error e0)%bool | _ => True end).
  { destruct (Nat.ltb 0 (n_initial p)); [apply discover_safely_err|reflexivity]. }
  destruct ((if Nat.ltb 0 (n_initial p) then discover_safely X y (n_initial p) else ret false) e0) as [[[|]|x] e1]; auto.
  { cbn in *. rewrite H1. reflexivity. }
  unfold bind at 1 2. pose proof (loop_err p X y (seq 0 (n_iter p)) e1) as H2. destruct (main_loop p X y (seq 0 (n_iter p)) e1) as [[[|]|x] e2]; auto.
  { cbn in *. rewrite H2. reflexivity. }
  destruct (finish_err true X y e2) as [H3 H4]. rewrite H4. destruct (finish false X y e2) as [[u|x] e3]; auto. cbn in *. rewrite H3, H2, H1, H0. reflexivity.
Qed.
End Touch.

Section Props.
Variable L : learner.
Variables (D : discovery L) (C : composition L) (G : logger L).
Notation RD := (recorded_d D).
Notation RC := (recorded_c C).
Notation est := (est RD RC G).
Variables (p : params) (os : Z) (X : matrix) (y : targets) (e : est).
Hypothesis HR : ready D C G p X y.
Notation z := (root_seed os (random_state p)).

Lemma ready_end : fit_end L D C G p z X y (step e) (fit p os false X y e).
Proof.
  destruct HR as (H1 & H2 & (d & H3) & (c & H4) & (l & H5)). eapply fit_outcome; [reflexivity|apply prepare_ok; eauto|auto].
Qed.
Lemma fine_no_raise (e' : est) : fine L D C G e' -> ~ some_call_raised e'.
Proof.
  intros [_ H1 H2] [(c & HI & x & HX)|(c & HI & x & HX)]; rewrite Forall_forall in *.
  - destruct (H1 c HI). congruence.
  - specialize (H2 c HI). cbv beta in H2. congruence.
Qed.
Lemma blame_fine x (e' : est) : all_python e' -> blame L D C G p x e' -> fine L D C G e'.
Proof.
  intros [H1 H2] []; auto; rewrite Forall_forall in *; exfalso.
  - specialize (H1 c H x H0). congruence.
  - specialize (H2 c H x H0). congruence.
Qed.

(* ----- C37 ----- *)
Lemma map_zero (M : matrix) : map (fun _ => 0) M = repeat 0 (length M).
Proof. induction M; cbn; congruence. Qed.
Lemma predict_error (e' : est) X' g : is_fitted e' = true -> is_error e' = true -> good_table X' -> predict e' X' g = (Ok (zeros X'), g).
Proof.
  intros H1 H2 H3. apply check_X_ok in H3. unfold predict. rewrite H1. cbn [negb]. unfold bind, lift. rewrite H3, H2. unfold ret, zeros. rewrite map_zero. reflexivity.
Qed.
Lemma predict_learned (e' : est) b X' g : is_fitted e' = true -> is_error e' = false -> elitist e' = Some (Learned b) -> good_table X' ->
  predict e' X' g = sol_predict L (emix b) (ebits b) (epool b) X' false g.
Proof.
  intros H1 H2 H3 H4. apply check_X_ok in H4. unfold predict. rewrite H1. cbn [negb]. unfold bind, lift. rewrite H4, H2, H3. reflexivity.
Qed.
Lemma cleanup_keeps (e0 : est) r e' : cleanup e0 = (r, e') -> (disc e' = disc e0 \/ disc e' = None) /\ (compo e' = compo e0 \/ compo e' = None).
Proof.
  unfold cleanup, bind, get, lift, assign. destruct (of_option AttributeError (elitist e0)) as [m|x]; [|intros HE; injection HE as _ <-; auto].
  assert (HT : forall e1, disc e1 = disc e0 -> compo e1 = compo e0 ->
    (let (r0, s') := (the_disc e1, e1) in match r0 with Ok _ => let (r1, s'0) := (Ok tt, set_comps None (compo e1) s') in
       match r1 with Ok _ => let (r2, s'1) := (the_compo e1, s'0) in match r2 with Ok _ => (Ok tt, set_comps None None s'1) | Raise e2 => (Raise e2, s'1) end
       | Raise e2 => (Raise e2, s'0) end | Raise e2 => (Raise e2, s') end) = (r, e') -> (disc e' = disc e0 \/ disc e' = None) /\ (compo e' = compo e0 \/ compo e' = None)).
  { intros e1 H1 H2. unfold the_disc, the_compo. rewrite H1, H2. destruct (disc e0) as [d|]; cbn; [|intros HE; injection HE as _ <-; auto].
    destruct (compo e0) as [c|]; cbn; intros HE; injection HE as _ <-; auto. }
  destruct m as [|b].
  - apply HT; reflexivity.
  - destruct (subpopulation L (ebits b) (epool b)) as [sub|x]; [|intros HE; injection HE as _ <-; auto]. apply HT; reflexivity.
Qed.
Lemma contained r (e' : est) clean : fit p os clean X y e = (r, e') -> all_python e' -> some_call_raised e' ->
  r = Ok tt /\ is_fitted e' = true /\ is_error e' = true.
Proof.
  assert (HF : forall r0 e0, fit p os false X y e = (r0, e0) -> all_python e0 -> some_call_raised e0 -> r0 = Ok tt /\ is_fitted e0 = true /\ is_error e0 = true).
  { intros r0 e0 HE HP HS. pose proof ready_end as H. rewrite HE in H. destruct H as (k0 & nd & nc & _ & H). destruct r0 as [[]|x].
    - destruct H as [(_ & H1 & H2 & _)|(_ & _ & H & _)]; [auto|]. exfalso. eapply fine_no_raise; eauto.
    - destruct H as [_ H]. exfalso. eapply fine_no_raise; eauto. eapply blame_fine; eauto. }
  destruct clean; [|apply HF]. rewrite fit_clean. destruct (fit p os false X y e) as [[[]|x] e0] eqn:EF.
  - destruct (is_error e0) eqn:EE; [intros HE; injection HE as <- <-; intros; split; auto; eapply HF; eauto|].
    pose proof ready_end as H. rewrite EF in H. destruct H as (k0 & nd & nc & _ & [(_ & H1 & _)|(_ & _ & H & _)]); [congruence|].
    (* cleanup keeps the record or deletes it *)
    intros HE HP HS. exfalso.
    assert (HK : (disc e' = disc e0 \/ disc e' = None) /\ (compo e' = compo e0 \/ compo e' = None)).
    { exact (cleanup_keeps e0 r e' HE). }
    apply (fine_no_raise e0 H). destruct HK as [[HK1|HK1] [HK2|HK2]]; destruct HS as [(c & HI & HX)|(c & HI & HX)]; unfold dcalls, ccalls in HI; rewrite ?HK1, ?HK2 in HI; try contradiction.
    all: try (left; exists c; split; [exact HI|exact HX]); try (right; exists c; split; [exact HI|exact HX]).
  - intros HE. injection HE as <- <-. intros HP HS. destruct (HF _ _ eq_refl HP HS) as [HC _]. discriminate.
Qed.
Lemma succeeded (e' : est) : fit p os false X y e = (Ok tt, e') -> is_error e' = false ->
  is_fitted e' = true /\ ~ some_call_raised e' /\
  exists b, elitist e' = Some (Learned (with_pool (pool e') b)) /\ forall cs c, ccalls e' = cs ++ [c] -> c_best c = Ok (Some b).
Proof.
  intros HE HN. pose proof ready_end as H. rewrite HE in H. destruct H as (k0 & nd & nc & _ & [(_ & H & _)|(_ & _ & HF & HFi & _ & HB & st & b & H1 & H2 & H3)]); [congruence|].
  split; auto. split; [apply fine_no_raise; auto|]. exists b. split; auto. intros cs c HC. destruct (HB st H1) as [_ HB2]. rewrite <- (HB2 cs c HC). auto.
Qed.
Lemma returns r (e' : est) : fit p os false X y e = (r, e') -> quiet G -> (0 < n_iter p)%nat -> starts_empty C ->
  all_python e' -> Forall delivered (ccalls e') -> r = Ok tt /\ is_fitted e' = true.
Proof.
  intros HE HQ HN HS HP HD. pose proof ready_end as H. rewrite HE in H. destruct H as (k0 & nd & nc & _ & H). destruct r as [[]|x].
  - split; auto. destruct H as [(_ & _ & H & _)|(_ & _ & _ & H & _)]; auto.
  - exfalso. destruct H as [_ H]. destruct HP as [HP1 HP2]. rewrite Forall_forall in *. destruct H as [c H1 H2 H3|c H1 H2 H3|c H1 H2 H3 _|c H1 H2 _|H1 _|H1 _].
    + specialize (HP1 c H1 x H2). congruence.
    + specialize (HP2 c H1 x H2). congruence.
    + destruct (HD c H1 H2) as [b HB]. eapply H3; eauto.
    + specialize (HS c H1). congruence.
    + auto.
    + lia.
Qed.
Lemma error_cause (e' : est) : fit p os false X y e = (Ok tt, e') -> (0 < n_rules p)%nat -> (n_initial p = 0%nat \/ (step e < n_iter p)%nat) ->
  starts_empty C -> Forall delivered (ccalls e') -> is_error e' = true -> some_call_raised e'.
Proof.
  intros HE HN HI HS HD HR'. pose proof ready_end as H. rewrite HE in H. destruct H as (k0 & nd & nc & _ & [(_ & _ & _ & H & _)|(_ & _ & H & _)]).
  - destruct H as [c x H1 H2|c x H1 H2|c x H1 H2|c x H1 H2|H1|H1 H2].
    + left. exists c. split; auto. exists x. auto.
    + right. exists c. split; auto. exists x. auto.
    + destruct (c_out c) as [[]|x'] eqn:EC.
      * exfalso. rewrite Forall_forall in HD. destruct (HD c H1 EC) as [b HB]. congruence.
      * right. exists c. split; auto. exists x'. auto.
    + specialize (HS c H1). congruence.
    + lia.
    + destruct HI; lia.
  - destruct H as [H _ _]. congruence.
Qed.
Lemma error_exactly r (e' : est) : fit p os false X y e = (r, e') -> quiet G -> (0 < n_iter p)%nat -> (0 < n_rules p)%nat ->
  (n_initial p = 0%nat \/ (step e < n_iter p)%nat) -> starts_empty C -> all_python e' -> Forall delivered (ccalls e') ->
  r = Ok tt /\ is_fitted e' = true /\ (is_error e' = true <-> some_call_raised e').
Proof.
  intros HE HQ HN HN2 HI HS HP HD. destruct (returns r e' HE HQ HN HS HP HD) as [-> HF]. split; auto. split; auto. split.
  - intros. apply error_cause; auto.
  - intros HC. eapply contained; eauto.
Qed.

(* ----- C38 ----- *)
Lemma any_rcd r (e' : est) : fit p os false X y e = (r, e') ->
  exists k0 nd nc, (k0 <= 1)%nat /\ (0 < nc -> k0 = if Nat.ltb 0 (n_initial p) then 1 else 0)%nat /\ (k0 = 1 -> 0 < n_initial p)%nat /\ (n_initial p = 0 -> k0 = 0)%nat /\ rcd L D C G p z X y k0 (step e) nd nc e'.
Proof.
  intros HE. pose proof ready_end as H. rewrite HE in H. destruct H as (k0 & nd & nc & HK & H).
  assert (HR' : rcd L D C G p z X y k0 (step e) nd nc e' \/ rcd L D C G p z X y 0 (step e) 0 0 e').
  { destruct r as [[]|x]; [destruct H as [(H & _)|(H & _)]; auto|destruct H; auto]. }
  assert (HK1 : (k0 <= 1 /\ (k0 = 1 -> 0 < n_initial p) /\ (n_initial p = 0 -> k0 = 0))%nat).
  { subst k0. destruct (Nat.ltb_spec 0 (n_initial p)); split; try lia. }
  destruct HK1 as (HK1 & HK2 & HK3). destruct HR' as [HR'|HR'].
  - exists k0, nd, nc. auto 6.
  - exists 0%nat, 0%nat, 0%nat. split; [lia|]. split; [lia|]. split; [lia|]. auto.
Qed.
Lemma pool_found r (e' : est) : fit p os false X y e = (r, e') ->
  pool e' = found (dcalls e') /\
  (forall k c, nth_error (dcalls e') k = Some c -> d_pool c = found (firstn k (dcalls e'))) /\
  (forall k c, nth_error (ccalls e') k = Some c -> c_pool c = found (firstn ((if Nat.ltb 0 (n_initial p) then 1 else 0) + S k) (dcalls e'))).
Proof.
  intros HE. destruct (any_rcd r e' HE) as (k0 & nd & nc & _ & HK & _ & _ & H). split; [apply H|]. split; [apply H|]. intros k c HC.
  destruct (rc_cgrown _ _ _ _ _ _ _ _ _ _ _ _ _ H k c HC) as [H1 _]. rewrite H1. rewrite HK; auto.
  rewrite <- (rc_clen _ _ _ _ _ _ _ _ _ _ _ _ _ H). assert ((k < length (ccalls e'))%nat) by (apply nth_error_Some; congruence). lia.
Qed.
Lemma found_le (ns : list nat) : forall calls, Forall2 (fun (c : dcall L) n => (length (out_of c) <= n)%nat) calls ns -> (length (found calls) <= fold_right Nat.add 0 ns)%nat.
Proof.
  intros calls H. induction H as [|c n calls ns HC H IH]; [apply le_n|]. unfold found in *. cbn [map concat fold_right]. rewrite app_length. lia.
Qed.
Lemma sum_repeat n k : fold_right Nat.add 0%nat (repeat n k) = (k * n)%nat.
Proof. induction k; cbn; lia. Qed.
Lemma sum_app a b : fold_right Nat.add 0%nat (a ++ b) = (fold_right Nat.add 0 a + fold_right Nat.add 0 b)%nat.
Proof. induction a; cbn; lia. Qed.
End Props.
