(* Early stopping and fits with fewer iterations. *)
From Coq Require Import Lia Lqa.
From Verif Require Import PyNum PyList PyMon PyRng L_Num L_List M_Rule M_RuleGen M_Mixing M_Fit S_More S_Units S_Patience L_Tandem L_More.

Lemma app_inv_length {A} : forall (a b c d : list A), length a = length c -> a ++ b = c ++ d -> a = c /\ b = d.
Proof. induction a as [|x a IH]; intros b [|z c] d H E; try discriminate H; [split; [reflexivity|exact E]|]. cbn in E. injection E as <- E. injection H as H. destruct (IH b c d H E) as [-> ->]. auto. Qed.

Section Patience.
Context {L : learner}.
Variables (D : discovery L) (C : composition L) (G : logger L).
Notation est := (est D C G).
Variable free : Prop.
Definition near (e e' : est) : Prop := exists c, e' = set_counter c e /\ ((c <= counter e)%nat \/ free).
Notation T := (tandem near).
Lemma near_assign f : (forall c (e : est), f (set_counter c e) = set_counter c (f e)) -> (forall e : est, counter (f e) = counter e) -> T (fun _ _ => True) (assign f) (assign f).
Proof. intros H1 H2 e e' (c & -> & H). cbn. split; [|exact I]. exists c. rewrite H1, H2. auto. Qed.
Lemma near_get {A B} (R : A -> B -> Prop) (k : est -> St est A) (k' : est -> St est B) : (forall e c, (c <= counter e)%nat \/ free -> T R (k e) (k' (set_counter c e))) -> T R (bind get k) (bind get k').
Proof. intros H e e' (c & -> & HC). unfold bind, get. apply (H e c HC). exists c. auto. Qed.
Lemma near_lift {A} (r r' : res A) : r = r' -> T eq (lift r) (lift r').
Proof. intros <-. apply tan_lift. destruct r; reflexivity. Qed.
Ltac asg := apply near_assign; reflexivity.
Lemma near_catch m m' : T (fun _ _ => True) m m' -> T eq (catch m) (catch m').
Proof.
  intros H e e' HS. specialize (H e e' HS). unfold catch. destruct (m e) as [[x|x] e1], (m' e') as [[x'|x'] e2]; try contradiction; destruct H as [H1 H2]; [auto|]. subst x'. destruct (python_exn x); [|auto]. split; [|reflexivity]. destruct H1 as (c & -> & H1). exists c. auto.
Qed.
Lemma near_discover X y k : T eq (discover_safely X y k) (discover_safely X y k).
Proof.
  unfold discover_safely. apply near_catch. destruct (Nat.eqb k 0); [apply tan_raise|]. unfold discover. apply near_get. intros e c HC. eapply tan_bind; [apply near_lift; reflexivity|]. intros el el' <-. eapply tan_bind; [apply near_lift; reflexivity|]. intros d d' <-.
  eapply tan_bind; [apply near_lift; reflexivity|]. intros s s' <-. cbn [pool step dseeds cseeds compo set_counter]. destruct (drun D X y (pool e) el k s d) as [r [k1 d1]]. eapply tan_bind; [asg|]. intros _ _ _. eapply tan_bind; [asg|]. intros _ _ _. eapply tan_bind; [apply near_lift; reflexivity|]. intros new new' <-. asg.
Qed.
Lemma near_compose X y : T eq (compose_safely X y) (compose_safely X y).
Proof.
  unfold compose_safely. apply near_catch. unfold compose_step. apply near_get. intros e c HC. eapply tan_bind; [apply near_lift; reflexivity|]. intros z z' <-. eapply tan_bind; [apply near_lift; reflexivity|]. intros s s' <-. cbn [pool max_len disc set_counter].
  destruct (crun C X y (max_len e) (pool e) s z) as [r z1]. eapply tan_bind; [asg|]. intros _ _ _. eapply tan_weak; [|apply near_lift; reflexivity]. auto.
Qed.
Lemma near_finish clean X y : T eq (finish clean X y) (finish clean X y).
Proof.
  unfold finish. apply near_get. intros e c HC. eapply tan_bind; [apply near_lift; reflexivity|]. intros el el' <-. eapply tan_bind; [apply near_lift; reflexivity|]. intros b b' <-. clear e c HC. eapply tan_bind; [asg|]. intros _ _ _. eapply tan_bind; [asg|]. intros _ _ _.
  apply near_get. intros e c HC. eapply tan_bind; [apply near_lift; reflexivity|]. intros l l' <-. cbn [pool set_counter]. eapply tan_bind; [apply near_lift; reflexivity|]. intros l1 l1' <-. eapply tan_bind; [asg|]. intros _ _ _. clear e c HC. destruct clean; [|apply tan_ret; reflexivity].
  unfold cleanup. apply near_get. intros e c HC. cbn [elitist set_counter]. eapply tan_bind; [apply near_lift; reflexivity|]. intros m m' <-. eapply tan_bind with (R := fun _ _ => True).
  - destruct m as [|b0]; [asg|]. eapply tan_bind; [apply near_lift; reflexivity|]. intros sub sub' <-. eapply tan_bind; [asg|]. intros _ _ _. asg.
  - intros _ _ _. clear e c HC. apply near_get. intros e c HC. eapply tan_bind; [apply near_lift; reflexivity|]. intros d d' <-. eapply tan_bind; [asg|]. intros _ _ _. eapply tan_bind; [apply near_lift; reflexivity|]. intros z z' <-. eapply tan_weak; [|asg]. intros [] [] _. reflexivity.
Qed.
Lemma nlt_lower d d' x : d' <= d -> nlt (Fin d) x = true -> nlt (Fin d') x = true.
Proof. destruct x; cbn; intros H; auto. rewrite !qlt_iff. intros H1. lra. Qed.

Section Params.
Variables p p' : params.
Hypothesis HS : same_but_stopping p p'.
Hypothesis HM : more_patient p p'.
Hypothesis HF : free <-> (patience p' <= 0)%Z.
(* who waits longer stops only if the other one does *)
Lemma near_stopping (e e' : est) b e1 : near e e' -> check_early_stopping p e = (Ok b, e1) -> exists b' e1', check_early_stopping p' e' = (Ok b', e1') /\ near e1 e1' /\ (b' = true -> b = true).
Proof.
  intros (c & -> & HC) H. unfold check_early_stopping in *. destruct (Z.ltb_spec 0 (patience p')) as [HP'|HP'].
  - destruct HM as [HM1|(HM1 & HM2 & HM3)]; [lia|]. assert (HC1 : (c <= counter e)%nat) by (destruct HC as [HC|HC]; [exact HC|apply HF in HC; lia]). destruct (Z.ltb_spec 0 (patience p)) as [HP|HP]; [|lia]. revert H. unfold bind, get, lift, assign, ret. change (best (set_counter c e)) with (best e).
    destruct (best e) as [el|x]; [|discriminate]. destruct (of_option AttributeError el) as [b0|x]; [|discriminate]. cbv zeta.
    cbn [previous counter set_counter]. set (diff := nsub _ _). pose proof (nlt_lower (delta p) (delta p') diff HM3) as HN. destruct (nlt (Fin (delta p)) diff).
    + rewrite (HN eq_refl). intros E. injection E as <- <-. eexists _, _. split; [reflexivity|]. split; [|auto]. exists 0%nat. auto.
    + intros E. injection E as <- <-. destruct (nlt (Fin (delta p')) diff); eexists _, _; (split; [reflexivity|]); split.
      * exists 0%nat. split; [reflexivity|]. left. apply Nat.le_0_l.
      * discriminate.
      * exists (S c). split; [reflexivity|]. left. cbn. lia.
      * intros E. apply Z.leb_le in E. apply Z.leb_le. lia.
  - assert (HE : e1 = set_counter (counter e1) e).
    { revert H. destruct (Z.ltb 0 (patience p)); [|intros E; injection E as <- <-; destruct e; reflexivity]. unfold bind, get, lift, assign, ret. destruct (best e) as [el|x]; [|discriminate]. destruct (of_option AttributeError el) as [b0|x]; [|discriminate]. cbv zeta. destruct (nlt _ _); intros E; injection E as <- <-; reflexivity. }
    exists false, (set_counter c e). split; [reflexivity|]. split; [|discriminate]. exists c. split; [rewrite HE; reflexivity|]. right. apply HF. exact HP'.
Qed.
Lemma near_iteration X y i (e e' : est) o e1 : near e e' -> iteration D C G p X y i e = (Ok o, e1) ->
  exists o' e1', iteration D C G p' X y i e' = (Ok o', e1') /\ near e1 e1' /\ (o = o' \/ (o = Some false /\ o' = None)).
Proof.
  intros HN. unfold iteration. rewrite <- (proj1 (proj2 (proj2 HS))).
  assert (H0 : near (set_step i e) (set_step i e')) by (destruct HN as (c & -> & HC); exists c; auto). intros H. unfold bind at 1 in H. cbn [assign] in H. unfold bind at 1. cbn [assign]. revert H0 H. generalize (set_step i e) (set_step i e'). clear e e' HN. intros e e' HN H.
  unfold bind at 1 in H. unfold bind at 1. pose proof (near_discover X y (n_rules p) e e' HN) as HD. destruct (discover_safely X y (n_rules p) e) as [[f|x] e2], (discover_safely X y (n_rules p) e') as [[f'|x'] e2']; try contradiction; [|discriminate H]. destruct HD as [HD <-].
  destruct f; [cbn in H; injection H as <- <-; eexists _, _; split; [reflexivity|]; auto|]. unfold bind at 1 in H. unfold bind at 1. pose proof (near_compose X y e2 e2' HD) as HC.
  destruct (compose_safely X y e2) as [[f|x] e3], (compose_safely X y e2') as [[f'|x'] e3']; try contradiction; [|discriminate H]. destruct HC as [HC <-]. destruct f; [cbn in H; injection H as <- <-; eexists _, _; split; [reflexivity|]; auto|].
  destruct HC as (c & -> & HC). unfold bind at 1, get at 1 in H. unfold bind at 1, get at 1. change (the_logs (set_counter c e3)) with (the_logs e3). unfold bind at 1, lift at 1 in H. unfold bind at 1, lift at 1. destruct (the_logs e3) as [l|x]; [|discriminate H].
  change (population (set_counter c e3)) with (population e3). change (best (set_counter c e3)) with (best e3). cbn [step pool set_counter]. unfold bind at 1, lift at 1 in H. unfold bind at 1, lift at 1. destruct (literation G X y _ _ _ _ l) as [l1|x]; [|discriminate H].
  unfold bind at 1 in H. unfold bind at 1. cbn [assign] in *. unfold bind in H. destruct (check_early_stopping p (set_logs (Some l1) e3)) as [[b|x] e4] eqn:E; [|discriminate H]. destruct (near_stopping (set_logs (Some l1) e3) (set_logs (Some l1) (set_counter c e3)) b e4) as (b' & e4' & E' & HN' & HB); [exists c; split; [reflexivity|exact HC]|exact E|].
  cbn in H. injection H as <- <-. unfold bind. rewrite E'. eexists _, _. split; [reflexivity|]. split; [exact HN'|]. destruct b', b; auto. discriminate (HB eq_refl).
Qed.
Lemma near_loop X y : forall steps (e e' : est) b e1, near e e' -> main_loop p X y steps e = (Ok b, e1) ->
  (exists e1', main_loop p' X y steps e' = (Ok b, e1') /\ near e1 e1') \/
  (b = false /\ exists a i rest e1', steps = a ++ i :: rest /\ step e1 = i /\ near e1 e1' /\ main_loop p' X y steps e' = main_loop p' X y rest e1').
Proof.
  induction steps as [|i steps IH]; intros e e' b e1 HN H.
  - cbn in H. injection H as <- <-. left. exists e'. split; [reflexivity|exact HN].
  - rewrite loop_iteration in H |- *. unfold bind in H |- *. destruct (iteration D C G p X y i e) as [[o|x] e2] eqn:E; [|discriminate H]. destruct (near_iteration X y i e e' o e2 HN E) as (o' & e2' & E' & HN' & HO). rewrite E'. destruct HO as [<-|[-> ->]].
    + destruct o as [b0|]; [cbn in H; injection H as <- <-; left; exists e2'; auto|]. destruct (IH e2 e2' b e1 HN' H) as [H1|(H1 & a & j & rest & e3 & H2 & H3 & H4 & H5)]; [left; exact H1|]. right. split; [exact H1|]. exists (i :: a), j, rest, e3. subst steps. auto.
    + cbn in H. injection H as <- <-. right. split; [reflexivity|]. exists [], i, steps, e2'. split; [reflexivity|]. split; [apply (iteration_step D C G p X y i e _ _ E)|]. auto.
Qed.
Lemma prepare_same os X y : prepare p os X y = prepare (D := D) (C := C) (G := G) p' os X y.
Proof. destruct HS as (H1 & H2 & H3 & H4). unfold prepare. rewrite H1, H2, H3, H4. reflexivity. Qed.
Lemma near_refl (e : est) : near e e.
Proof. exists (counter e). split; [destruct e; reflexivity|left; apply Nat.le_refl]. Qed.
Lemma near_fit os clean X y (e e1 : est) : fit p os clean X y e = (Ok tt, e1) ->
  (exists e1', fit p' os clean X y e = (Ok tt, e1') /\ near e1 e1') \/
  (exists e2 e2' n, near e2 e2' /\ step e2 = n /\ (n < n_iter p)%nat /\ is_error e2 = false /\ finish clean X y e2 = (Ok tt, e1) /\
    fit p' os clean X y e = (let* failed := main_loop p' X y (seq (S n) (n_iter p - S n)) in if failed then ret tt else finish clean X y) e2').
Proof.
  intros H. remember (fit p' os clean X y e) as o' eqn:Ho. unfold fit in H, Ho. rewrite <- prepare_same in Ho. rewrite <- (proj1 HS), <- (proj1 (proj2 HS)) in Ho. unfold bind at 1 in H. unfold bind at 1 in Ho. destruct (prepare p os X y e) as [[u|x] e2] eqn:EP; [|discriminate H]. assert (HE : is_error e2 = false).
  { revert EP. unfold prepare, bind, assign, lift. cbv beta iota zeta. destruct (check_X_y X y); [|discriminate]. destruct (check_random_state (random_state p)); [|discriminate]. destruct (seed_sequence os (random_state p)); [|discriminate]. destruct (dnew D X); [|discriminate]. destruct (cnew C); [|discriminate]. destruct (linit G); [|discriminate]. intros E. injection E as <- <-. reflexivity. }
  clear EP. unfold bind at 1 in H. unfold bind at 1 in Ho. assert (HI : forall e3, (if Nat.ltb 0 (n_initial p) then discover_safely X y (n_initial p) else ret false) e2 = (Ok false, e3) -> is_error e3 = false).
  { intros e3. destruct (Nat.ltb 0 (n_initial p)); [|intros E; injection E as <-; exact HE]. intros E. pose proof (discover_fine D C G X y (n_initial p) e2) as E2. rewrite E in E2. rewrite <- HE. apply E2. reflexivity. }
  destruct ((if Nat.ltb 0 (n_initial p) then discover_safely X y (n_initial p) else ret false) e2) as [[f|x] e3]; [|discriminate H]. destruct f; [left; cbn in H; injection H as <-; exists e3; split; [exact Ho|apply near_refl]|]. specialize (HI e3 eq_refl).
  unfold bind in H. destruct (main_loop p X y (seq 0 (n_iter p)) e3) as [[b|x] e4] eqn:EL; [|discriminate H]. destruct (near_loop X y _ e3 e3 b e4 (near_refl e3) EL) as [(e4' & E' & HN)|(-> & a & i & rest & e4' & E1 & E2 & HN & E3)].
  - left. unfold bind in Ho. rewrite E' in Ho. destruct b; [cbn in H; injection H as <-; exists e4'; auto|]. pose proof (near_finish clean X y e4 e4' HN) as HFN. rewrite H in HFN. destruct (finish clean X y e4') as [[u'|x'] e5]; [|contradiction]. destruct u'. exists e5. split; [exact Ho|apply HFN].
  - right. exists e4, e4', i. assert (HI2 : i = length a /\ (i < n_iter p)%nat /\ rest = seq (S i) (n_iter p - S i)).
    { assert (HL : length (seq 0 (n_iter p)) = length (a ++ i :: rest)) by (rewrite E1; reflexivity). rewrite seq_length, app_length in HL. cbn in HL. assert (HA : i = length a). { assert (HX : nth (length a) (seq 0 (n_iter p)) 0%nat = i) by (rewrite E1, app_nth2, Nat.sub_diag by lia; reflexivity). rewrite seq_nth in HX by lia. cbn in HX. auto. }
      split; [exact HA|]. split; [lia|]. replace (n_iter p) with (S i + (n_iter p - S i))%nat in E1 by lia. rewrite seq_app in E1. cbn [Nat.add] in E1. replace (a ++ i :: rest) with ((a ++ [i]) ++ rest) in E1 by (rewrite <- app_assoc; reflexivity). apply app_inv_length in E1; [exact (eq_sym (proj2 E1))|]. rewrite seq_length, app_length. cbn. lia. }
    destruct HI2 as (_ & H1 & H2). split; [exact HN|]. split; [exact E2|]. split; [exact H1|]. split; [rewrite <- HI; apply (loop_fine D C G p X y _ e3 e4 EL)|]. split; [exact H|]. rewrite Ho. unfold bind. rewrite E3, H2. reflexivity.
Qed.
End Params.
End Patience.

Lemma near_counter {L} {D : discovery L} {C : composition L} {G : logger L} free (e e' : est D C G) : near D C G free e e' -> same_but_counter e e'.
Proof. intros (c & -> & _). reflexivity. Qed.
Lemma patience_unused {L} (D : discovery L) (C : composition L) (G : logger L) p p' os clean X y (e e1 : est D C G) : same_but_stopping p p' -> more_patient p p' -> fit p os clean X y e = (Ok tt, e1) -> S (step e1) = n_iter p \/ is_error e1 = true ->
  exists e1', fit p' os clean X y e = (Ok tt, e1') /\ same_but_counter e1 e1'.
Proof.
  intros HS HM H HE. destruct (near_fit D C G (patience p' <= 0)%Z p p' HS HM (iff_refl _) os clean X y e e1 H) as [(e1' & E & HN)|(e2 & e2' & n & HN & H1 & H2 & H3 & H4 & H5)].
  - exists e1'. split; [exact E|]. exact (near_counter _ _ _ HN).
  - destruct (finish_keeps D C G clean X y e2) as [K1 K2]. rewrite H4 in K1, K2. cbn [snd] in K1, K2. destruct HE as [HE|HE]; [|congruence]. replace (n_iter p - S n)%nat with 0%nat in H5 by lia. cbn [seq main_loop] in H5. unfold bind, ret in H5.
    pose proof (near_finish D C G _ clean X y e2 e2' HN) as HF. rewrite H4 in HF. destruct (finish clean X y e2') as [[[]|x] e3]; [|contradiction]. exists e3. split; [exact H5|]. exact (near_counter _ _ _ (proj1 HF)).
Qed.
Lemma loop_step {L} (D : discovery L) (C : composition L) (G : logger L) q X y : forall steps (e : est D C G), steps <> [] -> In (step (snd (main_loop q X y steps e))) steps.
Proof.
  induction steps as [|i steps IH]; intros e HN; [contradiction|]. rewrite loop_iteration. unfold bind. destruct (iteration D C G q X y i e) as [[[b|]|x] e1] eqn:E; pose proof (iteration_step D C G q X y i e _ _ E) as HI; try (left; symmetry; exact HI).
  destruct steps as [|j steps]; [left; symmetry; exact HI|]. right. apply IH. discriminate.
Qed.
Lemma rest_step {L} (D : discovery L) (C : composition L) (G : logger L) q clean X y steps (e : est D C G) : steps <> [] -> In (step (snd ((let* failed := main_loop q X y steps in if failed then ret tt else finish clean X y) e))) steps.
Proof. intros HN. pose proof (loop_step D C G q X y steps e HN) as H. unfold bind. destruct (main_loop q X y steps e) as [[[]|x] e1]; cbn [snd] in H; try exact H. rewrite (proj1 (finish_keeps D C G clean X y e1)). exact H. Qed.
Lemma fit_step {L} (D : discovery L) (C : composition L) (G : logger L) q os clean X y (e : est D C G) : (step e < n_iter q)%nat -> (step (snd (fit q os clean X y e)) < n_iter q)%nat.
Proof.
  intros HN. unfold fit. unfold bind at 1. assert (HP : step (snd (prepare q os X y e)) = step e).
  { unfold prepare, bind, assign, lift. cbv beta iota zeta. destruct (check_X_y X y); [|reflexivity]. destruct (check_random_state (random_state q)); [|reflexivity]. destruct (seed_sequence os (random_state q)); [|reflexivity]. destruct (dnew D X); [|reflexivity]. destruct (cnew C); [|reflexivity]. destruct (linit G); reflexivity. }
  destruct (prepare q os X y e) as [[u|x] e1]; cbn [snd] in *; [|lia]. assert (HI : step (snd ((if Nat.ltb 0 (n_initial q) then discover_safely X y (n_initial q) else ret false) e1)) = step e1) by (destruct (Nat.ltb 0 (n_initial q)); [apply (discover_keeps D C G X y (n_initial q) e1)|reflexivity]).
  unfold bind at 1. destruct ((if Nat.ltb 0 (n_initial q) then discover_safely X y (n_initial q) else ret false) e1) as [[f|x] e2]; cbn [snd] in *; [|lia]. destruct f; [cbn; lia|]. assert (HQ : seq 0 (n_iter q) <> []) by (destruct (n_iter q); [lia|discriminate]).
  pose proof (rest_step D C G q clean X y (seq 0 (n_iter q)) e2 HQ) as H. apply in_seq in H. lia.
Qed.
Lemma learned_length {L} {D : discovery L} {C : composition L} {G : logger L} (e e' : est D C G) : same_but_length e e' -> same_learned e e'.
Proof. intros H. destruct H as [H1 [H2 H3] H4 H5 H6 _ _ H7]. constructor; assumption. Qed.
Lemma learned_counter {L} {D : discovery L} {C : composition L} {G : logger L} (e e' : est D C G) : same_but_counter e e' -> same_learned e e'.
Proof. destruct e, e'. intros H. injection H. intros. constructor; cbn; auto. Qed.
Lemma learned_sym {L} {D : discovery L} {C : composition L} {G : logger L} (e e' : est D C G) : same_learned e e' -> same_learned e' e.
Proof. intros H. destruct H as [H1 H2 [H3 H3'] H4 H5 (H6 & H7 & H8)]. constructor; auto. Qed.
Lemma learned_trans {L} {D : discovery L} {C : composition L} {G : logger L} (e e' e'' : est D C G) : same_learned e e' -> same_learned e' e'' -> same_learned e e''.
Proof. intros H K. destruct H as [H1 H2 [H3 H3'] H4 H5 (H6 & H7 & H8)], K as [K1 K2 [K3 K3'] K4 K5 (K6 & K7 & K8)]. constructor; [congruence|congruence|split; congruence|congruence|congruence|repeat split; congruence]. Qed.
Lemma stopped_shorter {L} (D : discovery L) (C : composition L) (G : logger L) p os clean X y (e e1 : est D C G) : blind_to_length C -> (step e < n_iter p)%nat -> fit p os clean X y e = (Ok tt, e1) -> (step e <= step e1)%nat ->
  exists e1', fit (exactly (S (step e1)) p) os clean X y e = (Ok tt, e1') /\ same_learned e1 e1'.
Proof.
  intros HC HN H HS. pose proof (fit_step D C G p os clean X y e HN) as HB. rewrite H in HB. cbn [snd] in HB. set (k := S (step e1)) in *. set (q := mkParams k (n_initial p) (n_rules p) (random_state p) (patience p) (delta p)).
  assert (HQ : exists e2, fit q os clean X y e = (Ok tt, e2) /\ same_but_length e2 e1).
  { assert (HP : same_but_iterations q p) by (repeat split). destruct (more_fit D C G HC k q p HP os clean X y e eq_refl) with (o := fit q os clean X y e) (o' := fit p os clean X y e) as [[E1 E2]|(e0 & e2 & e2' & A1 & A2 & A3 & A4 & A5 & A6)]; [unfold k; lia|unfold k; lia|reflexivity|reflexivity| |].
    - rewrite H in E1, E2. destruct (fit q os clean X y e) as [r e2]. cbn [fst snd] in *. subst r. exists e2. auto.
    - destruct (Nat.eq_dec (n_iter p - k) 0) as [E|E].
      + rewrite E in A6. cbn [seq main_loop] in A6. unfold bind, ret in A6. pose proof (more_finish D C G k clean X y e2 e2' A1) as HF. rewrite <- A5, <- A6, H in HF. destruct (fit q os clean X y e) as [[[]|x] e3]; [|contradiction]. exists e3. split; [reflexivity|]. apply (ah_same _ _ _ _ _ _ (proj1 HF)).
      + exfalso. assert (HQ : seq k (n_iter p - k) <> []) by (destruct (n_iter p - k)%nat; [lia|discriminate]). pose proof (rest_step D C G p clean X y _ e2' HQ) as HI. rewrite <- A6, H in HI. cbn [snd] in HI. apply in_seq in HI. unfold k in HI. lia. }
  destruct HQ as (e2 & H1 & H2). destruct (patience_unused D C G q (exactly k p) os clean X y e e2) as (e3 & H3 & H4); [repeat split|left; cbn; lia|exact H1|left; rewrite (sl_step _ _ H2); reflexivity|].
  exists e3. split; [exact H3|]. apply learned_trans with e2; [apply learned_sym, learned_length; exact H2|apply learned_counter; exact H4].
Qed.
Lemma learned_predict {L} {D : discovery L} {C : composition L} {G : logger L} (e e' : est D C G) : same_learned e e' -> forall Z g, M_Fit.predict e Z g = M_Fit.predict e' Z g.
Proof. intros H Z g. unfold M_Fit.predict. rewrite (proj1 (sm_status _ _ H)), (proj2 (sm_status _ _ H)), (sm_elitist _ _ H). reflexivity. Qed.
(* more patience: what the impatient fit did is how the patient one begins *)
Lemma patience_begins {L} (D : discovery L) (C : composition L) p p' os X y (e e1 : est D C (recorder L)) : same_but_stopping p p' -> more_patient p p' -> fit p os false X y e = (Ok tt, e1) ->
  let e2 := snd (fit p' os false X y e) in (step e1 <= step e2)%nat /\ begins_with (pool e1) (pool e2) /\ match logs e1, logs e2 with Some l, Some l' => begins_with l l' | None, None => True | _, _ => False end.
Proof.
  intros HS HM H. destruct (near_fit D C (recorder L) (patience p' <= 0)%Z p p' HS HM (iff_refl _) os false X y e e1 H) as [(e1' & E & HN)|(e2 & e2' & n & HN & H1 & H2 & H3 & H4 & H5)]; cbv zeta.
  - rewrite E. cbn [snd]. apply near_counter, learned_counter in HN. rewrite (sm_step _ _ HN), (sm_pool _ _ HN), (proj2 (proj2 (sm_parts _ _ HN))). split; [apply Nat.le_refl|]. split; [apply begins_refl|]. destruct (logs e1'); [apply begins_refl|exact I].
  - destruct (finish_keeps D C (recorder L) false X y e2) as [K1 _]. rewrite H4 in K1. cbn [snd] in K1. rewrite K1, H5. apply near_counter, learned_counter in HN.
    assert (HL : exists l, logs e2 = Some l). { revert H4. unfold finish, bind, get, lift, assign. destruct (best e2) as [el|x]; [|discriminate]. destruct (of_option AttributeError el); [|discriminate]. unfold the_logs. cbn. destruct (logs e2) as [l|]; [exists l; reflexivity|discriminate]. }
    destruct HL as [l HL]. destruct (finish_recorded D C X y e2 l HL) as (F1 & F2 & _). rewrite H4 in F1, F2. cbn [snd] in F1, F2. rewrite F1, F2. assert (HL' : logs e2' = Some l) by (rewrite <- (proj2 (proj2 (sm_parts _ _ HN))); exact HL).
    destruct (rest_recorded D C p' X y (seq (S n) (n_iter p - S n)) e2' l HL') as (R1 & l' & R2 & R3). split; [|split; [rewrite (sm_pool _ _ HN); exact R1|rewrite R2; exact R3]].
    destruct (Nat.eq_dec (n_iter p - S n) 0) as [E|E].
    + rewrite E. cbn [seq main_loop]. unfold bind, ret. rewrite (proj1 (finish_keeps D C (recorder L) false X y e2')). rewrite (sm_step _ _ HN). apply Nat.le_refl.
    + assert (HQ : seq (S n) (n_iter p - S n) <> []) by (destruct (n_iter p - S n)%nat; [lia|discriminate]). pose proof (rest_step D C (recorder L) p' false X y _ e2' HQ) as HI. apply in_seq in HI. lia.
Qed.
