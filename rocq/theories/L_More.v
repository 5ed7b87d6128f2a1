(* A fit with more iterations goes on where the shorter one ends. *)
From Coq Require Import Lia.
From Verif Require Import PyNum PyList PyMon PyRng L_List M_Rule M_RuleGen M_Mixing M_Fit S_More S_Units L_Tandem.

Lemma evens_app {A} : forall n (l l' : list A), length l = (n * 2)%nat -> evens (l ++ l') = evens l ++ evens l' /\ odds (l ++ l') = odds l ++ odds l'.
Proof.
  induction n as [|n IH]; intros l l' H; [destruct l; [split; reflexivity|discriminate]|]. destruct l as [|x [|z l]]; try discriminate H. destruct (IH l l') as [H1 H2]; [cbn in H; lia|]. cbn [app evens odds]. rewrite H1. split; [reflexivity|].
  destruct l as [|w l]; cbn [app odds] in *; [destruct l'; reflexivity|]. destruct (l ++ l') eqn:E; [destruct l; [|discriminate]; cbn in E; subst l'; cbn in *; lia|]. cbn [evens]. cbn [odds] in H2. destruct l as [|w2 l]; [cbn in H; lia|]. cbn in E. injection E as <- <-. cbn [evens app]. cbn [evens app] in H2. f_equal. exact H2.
Qed.
Lemma evens_len {A} : forall n (l : list A), length l = (n * 2)%nat -> length (evens l) = n /\ length (odds l) = n.
Proof.
  induction n as [|n IH]; intros l H; [destruct l; [split; reflexivity|discriminate]|]. destruct l as [|x [|z l]]; try discriminate H. destruct (IH l) as [H1 H2]; [cbn in H; lia|]. cbn [evens odds length]. rewrite H1. split; [reflexivity|].
  destruct l as [|w l]; [cbn in *; lia|]. destruct l as [|v l]; [cbn in H; lia|]. cbn [evens length odds] in *. lia.
Qed.
Lemma nth_prefix {A} (l r : list A) i : (i < length l)%nat -> nth_error (l ++ r) i = nth_error l i.
Proof. intros H. apply nth_error_app1. exact H. Qed.
Lemma update_prefix {A} (l r : list A) i x : (i < length l)%nat -> update (l ++ r) i x = update l i x ++ r.
Proof. revert i. induction l as [|z l IH]; intros i H; cbn in H; [lia|]. destruct i as [|i]; cbn; [reflexivity|]. rewrite IH by lia. reflexivity. Qed.

Lemma last_default {A} (l : list A) a b : l <> [] -> last l a = last l b.
Proof. induction l as [|x l IH]; intros H; [contradiction|]. destruct l as [|z l]; [reflexivity|]. apply IH. discriminate. Qed.

Section More.
Context {L : learner}.
Variables (D : discovery L) (C : composition L) (G : logger L).
Hypothesis HC : blind_to_length C.
Notation est := (est D C G).
Record ahead (n : nat) (e e' : est) : Prop := { ah_same : same_but_length e e'; ah_d : length (dseeds e) = n; ah_c : length (cseeds e) = n; ah_step : (step e < n)%nat }.
Variable n : nat.
Notation T := (tandem (ahead n)).
Ltac fields HS := destruct HS as [[F1 [F2 F2'] [F3 F3'] F4 F5 [ld F6] [lc F7] (F8 & F9 & F10)] FD FC FS].
Ltac tied := constructor; [constructor|..]; cbn in *; eauto; intuition (eauto; congruence).
Lemma more_assign f f' : (forall e e', ahead n e e' -> ahead n (f e) (f' e')) -> T (fun _ _ => True) (assign f) (assign f').
Proof. intros H e e' HS. cbn. auto. Qed.
Ltac asg := apply more_assign; let HS := fresh in let e1 := fresh in let e2 := fresh in intros e1 e2 HS; fields HS; tied.
Lemma more_best e e' : ahead n e e' -> best e = best e'.
Proof. intros HS. fields HS. unfold best, the_compo. rewrite F5, F9. reflexivity. Qed.
Lemma more_population e e' : ahead n e e' -> population e = population e'.
Proof. intros HS. fields HS. unfold population, the_compo. rewrite F9. reflexivity. Qed.
Lemma same_lift {A} (r r' : res A) : r = r' -> T eq (lift r) (lift r').
Proof. intros <-. apply tan_lift. destruct r; reflexivity. Qed.
Lemma more_catch m m' : T (fun _ _ => True) m m' -> T eq (catch m) (catch m').
Proof.
  intros H e e' HS. specialize (H e e' HS). unfold catch. destruct (m e) as [[x|x] e1], (m' e') as [[x'|x'] e2]; try contradiction; destruct H as [H1 H2]; [auto|]. subst x'. destruct (python_exn x); [|auto]. split; [|reflexivity]. fields H1. tied.
Qed.
Lemma more_discover X y k : T eq (discover_safely X y k) (discover_safely X y k).
Proof.
  unfold discover_safely. apply more_catch. destruct (Nat.eqb k 0); [apply tan_raise|]. unfold discover. eapply tan_bind; [apply tan_get|]. intros e e' HS. eapply tan_bind; [apply same_lift, more_best; exact HS|]. intros el el' <-.
  pose proof HS as HS0. destruct HS0 as [[F1 [F2 F2'] [F3 F3'] F4 F5 [ld F6] [lc F7] (F8 & F9 & F10)] FD FC FS]. eapply tan_bind; [apply same_lift; unfold the_disc; rewrite F8; reflexivity|]. intros d d' <-. rewrite <- F1, F6, (nth_prefix (dseeds e) ld) by lia. eapply tan_bind; [apply same_lift; reflexivity|]. intros s s' <-. rewrite <- F5, <- F9.
  destruct (drun D X y (pool e) el k s d) as [r [k1 d1]]. rewrite update_prefix by lia. rewrite F7. assert (HL : forall x, length (update (dseeds e) (step e) x) = n) by (intros x; rewrite update_length; exact FD). clear F1 F2 F2' F3 F3' F4 F6 F8 F10.
  eapply tan_bind; [apply more_assign; intros e1 e2 HS1; destruct HS1 as [[]]; tied|]. intros _ _ _. eapply tan_bind; [apply more_assign; intros e1 e2 HS1; destruct HS1 as [[]]; tied|]. intros _ _ _. eapply tan_bind; [apply same_lift; reflexivity|]. intros new new' <-. apply more_assign; intros e1 e2 HS1; destruct HS1 as [[]]; tied.
Qed.
Lemma more_compose X y : T eq (compose_safely X y) (compose_safely X y).
Proof.
  unfold compose_safely. apply more_catch. unfold compose_step. eapply tan_bind; [apply tan_get|]. intros e e' HS. destruct HS as [[F1 [F2 F2'] [F3 F3'] F4 F5 [ld F6] [lc F7] (F8 & F9 & F10)] FD FC FS].
  eapply tan_bind; [apply same_lift; unfold the_compo; rewrite F9; reflexivity|]. intros c c' <-. rewrite <- F1, F7, (nth_prefix (cseeds e) lc) by lia. eapply tan_bind; [apply same_lift; reflexivity|]. intros s s' <-. rewrite <- F5, <- F8, (HC X y (max_len e') (max_len e) (pool e) s c). destruct (crun C X y (max_len e) (pool e) s c) as [r c1].
  eapply tan_bind; [apply more_assign; intros e1 e2 HS1; destruct HS1 as [[]]; tied|]. intros _ _ _. eapply tan_weak; [|apply same_lift; reflexivity]. auto.
Qed.
Section Params.
Variables p p' : params.
Hypothesis HP : same_but_iterations p p'.
Lemma more_stopping : T eq (check_early_stopping p) (check_early_stopping p').
Proof.
  destruct HP as (P1 & P2 & P3 & P4 & P5). unfold check_early_stopping. rewrite <- P4, <- P5. destruct (Z.ltb 0 (patience p)); [|apply tan_ret; reflexivity]. eapply tan_bind; [apply tan_get|]. intros e e' HS. eapply tan_bind; [apply same_lift, more_best; exact HS|]. intros el el' <-. eapply tan_bind; [apply same_lift; reflexivity|]. intros b b' <-.
  destruct HS as [[F1 [F2 F2'] [F3 F3'] F4 F5 [ld F6] [lc F7] (F8 & F9 & F10)] FD FC FS]. cbv zeta. rewrite <- F2, <- F2'. destruct (nlt _ _); (eapply tan_bind; [apply more_assign; intros e1 e2 HS1; destruct HS1 as [[? [? ?]]]; tied|]; intros _ _ _; apply tan_ret; reflexivity).
Qed.
Lemma discover_fine X y k (e : est) : fst (discover_safely X y k e) = Ok false -> is_error (snd (discover_safely X y k e)) = is_error e.
Proof.
  unfold discover_safely, catch. destruct (Nat.eqb k 0); [cbn; discriminate|]. unfold discover, bind, get, lift, assign, raise.
  destruct (best e) as [el|x]; [|destruct (python_exn x); cbn; discriminate]. destruct (the_disc e) as [d|x]; [|destruct (python_exn x); cbn; discriminate]. destruct (of_option IndexError _) as [s|x]; [|destruct (python_exn x); cbn; discriminate].
  destruct (drun D X y (pool e) el k s d) as [[new|x] [k1 d1]]; [reflexivity|destruct (python_exn x); cbn; discriminate].
Qed.
Lemma compose_fine X y (e : est) : fst (compose_safely X y e) = Ok false -> is_error (snd (compose_safely X y e)) = is_error e.
Proof.
  unfold compose_safely, catch, compose_step, bind, get, lift, assign. destruct (the_compo e) as [c|x]; [|destruct (python_exn x); cbn; discriminate]. destruct (of_option IndexError _) as [s|x]; [|destruct (python_exn x); cbn; discriminate].
  destruct (crun C X y (max_len e) (pool e) s c) as [[u|x] c1]; [reflexivity|destruct (python_exn x); cbn; discriminate].
Qed.
Lemma stopping_fine q (e : est) : is_error (snd (check_early_stopping q e)) = is_error e.
Proof.
  unfold check_early_stopping. destruct (Z.ltb 0 (patience q)); [|reflexivity]. unfold bind, get, lift, assign, ret. destruct (best e) as [el|x]; [|reflexivity]. destruct (of_option AttributeError el) as [b|x]; [|reflexivity]. cbv zeta. destruct (nlt _ _); reflexivity.
Qed.
(* one iteration: Some b when the loop ends with b *)
Definition iteration (q : params) X y (i : nat) : St est (option bool) :=
  assign (set_step i) ;;
  let* failed := discover_safely X y (n_rules q) in
  if failed then ret (Some true) else
  let* failed := compose_safely X y in
  if failed then ret (Some true) else
  let* e := get in
  let* l := lift (the_logs e) in
  let* l' := lift (literation G X y (step e) (pool e) (population e) (best e) l) in
  assign (set_logs (Some l')) ;;
  let* stop := check_early_stopping q in
  ret (if stop then Some false else None).
Lemma loop_iteration q X y i steps e : main_loop q X y (i :: steps) e = (let* r := iteration q X y i in match r with Some b => ret b | None => main_loop q X y steps end) e.
Proof.
  cbn [main_loop]. unfold iteration, bind, get, lift, ret. destruct (assign (set_step i) e) as [[u|x] e1]; [|reflexivity]. destruct (discover_safely X y (n_rules q) e1) as [[[]|x] e2]; try reflexivity. destruct (compose_safely X y e2) as [[[]|x] e3]; try reflexivity.
  destruct (the_logs e3) as [l|x]; [|reflexivity]. destruct (literation _ _ _ _ _ _ _ _) as [l'|x]; [|reflexivity]. destruct (assign (set_logs (Some l')) e3) as [[u2|x] e4]; [|reflexivity]. destruct (check_early_stopping q e4) as [[[]|x] e5]; reflexivity.
Qed.
Lemma more_iteration X y i : (i < n)%nat -> T eq (iteration p X y i) (iteration p' X y i).
Proof.
  intros Hi. unfold iteration. rewrite <- (proj1 (proj2 HP)). eapply tan_bind; [apply more_assign; intros e1 e2 HS1; destruct HS1 as [[]]; tied|]. intros _ _ _. eapply tan_bind; [apply more_discover|]. intros f f' <-. destruct f; [apply tan_ret; reflexivity|]. eapply tan_bind; [apply more_compose|]. intros f f' <-. destruct f; [apply tan_ret; reflexivity|].
  eapply tan_bind; [apply tan_get|]. intros e e' HS. rewrite (more_population e e' HS), (more_best e e' HS). destruct HS as [[F1 [F2 F2'] [F3 F3'] F4 F5 [ld F6] [lc F7] (F8 & F9 & F10)] FD FC FS]. eapply tan_bind; [apply same_lift; unfold the_logs; rewrite F10; reflexivity|]. intros l l' <-. rewrite <- F1, <- F5. eapply tan_bind; [apply same_lift; reflexivity|]. intros l1 l1' <-.
  eapply tan_bind; [apply more_assign; intros e1 e2 HS1; destruct HS1 as [[? ? ? ? ? ? ? (? & ? & ?)]]; tied|]. intros _ _ _. eapply tan_bind; [apply more_stopping|]. intros b b' <-. apply tan_ret. reflexivity.
Qed.
Lemma discover_keeps X y k (e : est) : let e1 := snd (discover_safely X y k e) in step e1 = step e /\ logs e1 = logs e /\ begins_with (pool e) (pool e1).
Proof.
  assert (H0 : begins_with (pool e) (pool e)) by (exists []; rewrite app_nil_r; reflexivity). unfold discover_safely, catch. destruct (Nat.eqb k 0); [cbn; auto|]. unfold discover, bind, get, lift, assign, raise.
  destruct (best e) as [el|x]; [|destruct (python_exn x); cbn; auto]. destruct (the_disc e) as [d|x]; [|destruct (python_exn x); cbn; auto]. destruct (of_option IndexError _) as [s|x]; [|destruct (python_exn x); cbn; auto].
  destruct (drun D X y (pool e) el k s d) as [[new|x] [k1 d1]]; [|destruct (python_exn x); cbn; auto]. cbn. split; [reflexivity|]. split; [reflexivity|]. exists new. reflexivity.
Qed.
Lemma compose_keeps X y (e : est) : let e1 := snd (compose_safely X y e) in step e1 = step e /\ logs e1 = logs e /\ pool e1 = pool e.
Proof.
  unfold compose_safely, catch, compose_step, bind, get, lift, assign. destruct (the_compo e) as [c|x]; [|destruct (python_exn x); cbn; auto]. destruct (of_option IndexError _) as [s|x]; [|destruct (python_exn x); cbn; auto].
  destruct (crun C X y (max_len e) (pool e) s c) as [[u|x] c1]; [|destruct (python_exn x); cbn; auto]. cbn. auto.
Qed.
Lemma stopping_keeps q (e : est) : let e1 := snd (check_early_stopping q e) in step e1 = step e /\ logs e1 = logs e /\ pool e1 = pool e /\ compo e1 = compo e /\ is_error e1 = is_error e.
Proof.
  unfold check_early_stopping. destruct (Z.ltb 0 (patience q)); [|cbn; auto]. unfold bind, get, lift, assign, ret. destruct (best e) as [el|x]; [|cbn; auto]. destruct (of_option AttributeError el) as [b|x]; [|cbn; auto]. cbv zeta. destruct (nlt _ _); cbn; auto.
Qed.
Lemma iteration_step q X y i (e : est) : forall o e1, iteration q X y i e = (o, e1) -> step e1 = i.
Proof.
  intros o e4 H. unfold iteration in H. unfold bind at 1 in H. cbn [assign] in H. set (e0 := set_step i e) in H. assert (A1 : step e0 = i) by reflexivity. clearbody e0.
  unfold bind at 1 in H. destruct (discover_keeps X y (n_rules q) e0) as (B1 & _). destruct (discover_safely X y (n_rules q) e0) as [[[]|x] e1]; cbn [snd] in B1; try (injection H as <- <-; congruence).
  unfold bind at 1 in H. destruct (compose_keeps X y e1) as (C1 & _). destruct (compose_safely X y e1) as [[[]|x] e2]; cbn [snd] in C1; try (injection H as <- <-; congruence).
  unfold bind at 1, get at 1 in H. unfold bind at 1, lift at 1 in H. destruct (the_logs e2) as [l|x]; [|injection H as <- <-; congruence]. unfold bind at 1, lift at 1 in H. destruct (literation _ _ _ _ _ _ _ _) as [l'|x]; [|injection H as <- <-; congruence].
  unfold bind at 1 in H. cbn [assign] in H. set (e3 := set_logs _ e2) in H. assert (G1 : step e3 = step e2) by reflexivity. clearbody e3. unfold bind in H. destruct (stopping_keeps q e3) as (S1 & _). destruct (check_early_stopping q e3) as [[b|x] e5]; cbn [snd] in *; injection H as <- <-; congruence.
Qed.
Lemma iteration_fine q X y i (e : est) : forall o e1, iteration q X y i e = (Ok o, e1) -> o <> Some true -> is_error e1 = is_error e.
Proof.
  intros o e4 H HO. unfold iteration in H. unfold bind at 1 in H. cbn [assign] in H. set (e0 := set_step i e) in H. assert (A1 : is_error e0 = is_error e) by reflexivity. clearbody e0.
  unfold bind at 1 in H. pose proof (discover_fine X y (n_rules q) e0) as B1. destruct (discover_safely X y (n_rules q) e0) as [[[]|x] e1]; cbn [fst snd] in B1; try (injection H as <- <-; contradiction); try discriminate H. specialize (B1 eq_refl).
  unfold bind at 1 in H. pose proof (compose_fine X y e1) as C1. destruct (compose_safely X y e1) as [[[]|x] e2]; cbn [fst snd] in C1; try (injection H as <- <-; contradiction); try discriminate H. specialize (C1 eq_refl).
  unfold bind at 1, get at 1 in H. unfold bind at 1, lift at 1 in H. destruct (the_logs e2) as [l|x]; [|discriminate H]. unfold bind at 1, lift at 1 in H. destruct (literation _ _ _ _ _ _ _ _) as [l'|x]; [|discriminate H].
  unfold bind at 1 in H. cbn [assign] in H. set (e3 := set_logs _ e2) in H. assert (G1 : is_error e3 = is_error e2) by reflexivity. clearbody e3. unfold bind in H. pose proof (stopping_fine q e3) as S1. destruct (check_early_stopping q e3) as [[b|x] e5]; cbn [snd] in *; [|discriminate H]. injection H as <- <-. congruence.
Qed.
Lemma loop_fine q X y steps : forall e e1 : est, main_loop q X y steps e = (Ok false, e1) -> is_error e1 = is_error e.
Proof.
  induction steps as [|i steps IH]; intros e e1 H; [cbn in H; injection H as <-; reflexivity|]. rewrite loop_iteration in H. unfold bind in H. destruct (iteration q X y i e) as [[[b|]|x] e2] eqn:EI; [| |discriminate H].
  - cbn in H. injection H as -> <-. apply (iteration_fine q X y i e _ _ EI). discriminate.
  - rewrite (IH _ _ H). apply (iteration_fine q X y i e _ _ EI). discriminate.
Qed.
Lemma finish_keeps clean X y (e : est) : step (snd (finish clean X y e)) = step e /\ is_error (snd (finish clean X y e)) = is_error e.
Proof.
  unfold finish, bind, get, lift, assign, ret. destruct (best e) as [el|x]; [|auto]. destruct (of_option AttributeError el) as [b|x]; [|auto]. cbn [the_logs logs set_status set_elitist]. destruct (the_logs _) as [l|x]; [|auto]. destruct (lfinal _ _ _ _ _ _) as [l1|x]; [|auto]. destruct clean; [|auto].
  unfold cleanup, bind, get, lift, assign. destruct (of_option AttributeError _) as [m|x]; [|auto]. destruct m as [|b0].
  - destruct (the_disc _) as [d|x]; [|auto]. destruct (the_compo _) as [c|x]; auto.
  - destruct (subpopulation _ _ _) as [sub|x]; [|auto]. destruct (the_disc _) as [d|x]; [|auto]. destruct (the_compo _) as [c|x]; auto.
Qed.
(* the longer loop does the same, or goes on where the shorter one ends *)
Lemma more_loop X y : forall steps rest (e e' : est), Forall (fun i => (i < n)%nat) steps -> ahead n e e' ->
  (fst (main_loop p X y steps e) = fst (main_loop p' X y (steps ++ rest) e') /\ ahead n (snd (main_loop p X y steps e)) (snd (main_loop p' X y (steps ++ rest) e'))) \/
  (fst (main_loop p X y steps e) = Ok false /\ step (snd (main_loop p X y steps e)) = last steps (step e) /\
   exists e1, ahead n (snd (main_loop p X y steps e)) e1 /\ main_loop p' X y (steps ++ rest) e' = main_loop p' X y rest e1).
Proof.
  induction steps as [|i steps IH]; intros rest e e' HF HS.
  - right. cbn. split; [reflexivity|]. split; [reflexivity|]. exists e'. auto.
  - apply Forall_cons_iff in HF as [Hi HF]. cbn [app]. rewrite !loop_iteration. unfold bind. pose proof (more_iteration X y i Hi e e' HS) as H. pose proof (iteration_step p X y i e) as H1.
    destruct (iteration p X y i e) as [[[b|]|x] e1], (iteration p' X y i e') as [[[b'|]|x'] e1']; try contradiction; destruct H as [HA E]; try discriminate E.
    + left. injection E as <-. cbn. auto.
    + destruct (IH rest e1 e1' HF HA) as [H|(H2 & H3 & H4)]; [left; exact H|]. right. split; [exact H2|]. split; [|exact H4]. rewrite H3. destruct steps as [|j steps]; [cbn; apply (H1 _ _ eq_refl)|]. apply (last_default (j :: steps) (step e1) (step e)). discriminate.
    + left. cbn. subst x'. auto.
Qed.
Lemma more_finish clean X y : T eq (finish (G := G) clean X y) (finish clean X y).
Proof.
  unfold finish. eapply tan_bind; [apply tan_get|]. intros e e' HS. eapply tan_bind; [apply same_lift, more_best; exact HS|]. intros el el' <-. eapply tan_bind; [apply same_lift; reflexivity|]. intros b b' <-. clear e e' HS.
  eapply tan_bind; [apply more_assign; intros e1 e2 HS1; destruct HS1 as [[]]; tied|]. intros _ _ _. eapply tan_bind; [apply more_assign; intros e1 e2 HS1; destruct HS1 as [[]]; tied|]. intros _ _ _. eapply tan_bind; [apply tan_get|]. intros e e' HS. pose proof (sl_parts _ _ (ah_same _ _ _ HS)) as (F8 & F9 & F10). rewrite <- (sl_pool _ _ (ah_same _ _ _ HS)).
  eapply tan_bind; [apply same_lift; unfold the_logs; rewrite F10; reflexivity|]. intros l l' <-. eapply tan_bind; [apply same_lift; reflexivity|]. intros l1 l1' <-. clear e e' HS F8 F9 F10. eapply tan_bind; [apply more_assign; intros e1 e2 HS1; destruct HS1 as [[]]; tied|]. intros _ _ _.
  destruct clean; [|apply tan_ret; reflexivity]. unfold cleanup. eapply tan_bind; [apply tan_get|]. intros e e' HS. rewrite <- (sl_elitist _ _ (ah_same _ _ _ HS)). eapply tan_bind; [apply same_lift; reflexivity|]. intros m m' <-. clear e e' HS. eapply tan_bind with (R := fun _ _ => True).
  - destruct m as [|b0]; [apply more_assign; intros e1 e2 HS1; destruct HS1 as [[]]; tied|]. eapply tan_bind; [apply same_lift; reflexivity|]. intros sub sub' <-. eapply tan_bind; [apply more_assign; intros e1 e2 HS1; destruct HS1 as [[]]; tied|]. intros _ _ _. apply more_assign; intros e1 e2 HS1; destruct HS1 as [[]]; tied.
  - intros _ _ _. eapply tan_bind; [apply tan_get|]. intros e e' HS. pose proof (sl_parts _ _ (ah_same _ _ _ HS)) as (F8 & F9 & F10). eapply tan_bind; [apply same_lift; unfold the_disc; rewrite F8; reflexivity|]. intros d d' <-. rewrite <- F9.
    eapply tan_bind; [apply more_assign; intros e1 e2 HS1; destruct HS1 as [[]]; tied|]. intros _ _ _. unfold the_compo. rewrite F9. eapply tan_bind; [apply same_lift; reflexivity|]. intros c c' <-. eapply tan_weak; [|apply more_assign; intros e1 e2 HS1; destruct HS1 as [[]]; tied]. intros [] [] _. reflexivity.
Qed.
Lemma spawned_more s k j : exists l, fst (spawn s ((k + j) * 2)) = fst (spawn s (k * 2)) ++ l /\ length (fst (spawn s (k * 2))) = (k * 2)%nat.
Proof. cbn [fst spawn]. replace ((k + j) * 2)%nat with (k * 2 + j * 2)%nat by lia. rewrite seq_app, map_app. eexists. split; [reflexivity|]. rewrite map_length, seq_length. reflexivity. Qed.
Lemma same_self (e : est) : same_but_length e e.
Proof. constructor; auto; exists []; rewrite app_nil_r; reflexivity. Qed.
Lemma more_prepare os X y (e : est) : n_iter p = n -> (n <= n_iter p')%nat -> (step e < n)%nat ->
  match prepare p os X y e, prepare p' os X y e with
  | (Ok _, e1), (Ok _, e2) => ahead n e1 e2 /\ is_error e1 = false
  | (Raise x, e1), (Raise x', e2) => same_but_length e1 e2 /\ x = x'
  | _, _ => False end.
Proof.
  intros HN HL HS. destruct HP as (P1 & P2 & P3 & P4 & P5). unfold prepare. rewrite <- P1, <- P2, <- P3, HN. unfold bind, assign, lift. cbv beta iota zeta. destruct (check_X_y X y) as [u|x]; [|split; [apply same_self|reflexivity]]. destruct (check_random_state (random_state p)) as [u2|x]; [|split; [apply same_self|reflexivity]].
  destruct (seed_sequence os (random_state p)) as [s|x]; [|split; [apply same_self|reflexivity]]. destruct (spawned_more s n (n_iter p' - n)) as (l & E1 & E2). replace (n + (n_iter p' - n))%nat with (n_iter p') in E1 by lia. rewrite E1. destruct (evens_app n _ l E2) as [E3 E4]. rewrite E3, E4. destruct (evens_len n _ E2) as [E5 E6].
  destruct (dnew D X) as [d|x]; [|split; [|reflexivity]; constructor; cbn; eauto]. destruct (cnew C) as [c|x]; [|split; [|reflexivity]; constructor; cbn; eauto]. destruct (linit G) as [lg|x]; [|split; [|reflexivity]; constructor; cbn; eauto].
  split; [|reflexivity]. constructor; [constructor|..]; cbn; eauto.
Qed.
(* the longer fit does the same, or its loop goes on *)
Lemma more_fit os clean X y (e : est) : n_iter p = n -> (n <= n_iter p')%nat -> (step e < n)%nat ->
  forall o o', o = fit p os clean X y e -> o' = fit p' os clean X y e ->
  (fst o = fst o' /\ same_but_length (snd o) (snd o')) \/
  (exists e0 e1 e1', ahead n e1 e1' /\ step e1 = Nat.pred n /\ is_error e1 = false /\ main_loop p X y (seq 0 n) e0 = (Ok false, e1) /\ o = finish clean X y e1 /\
    o' = (let* failed := main_loop p' X y (seq n (n_iter p' - n)) in if failed then ret tt else finish clean X y) e1').
Proof.
  intros HN HL HS o o' Ho Ho'. unfold fit in Ho, Ho'. pose proof (more_prepare os X y e HN HL HS) as H. unfold bind at 1 in Ho. unfold bind at 1 in Ho'. destruct (prepare p os X y e) as [[u|x] e1], (prepare p' os X y e) as [[u'|x'] e2]; try contradiction; [|left; destruct H as [H <-]; subst; cbn; auto].
  destruct H as [HA HST]. rewrite <- (proj1 HP) in Ho'. assert (HM : T eq (if Nat.ltb 0 (n_initial p) then discover_safely X y (n_initial p) else ret false) (if Nat.ltb 0 (n_initial p) then discover_safely X y (n_initial p) else ret false)).
  { destruct (Nat.ltb 0 (n_initial p)); [apply more_discover|apply tan_ret; reflexivity]. }
  assert (HM2 : forall a b : est, (if Nat.ltb 0 (n_initial p) then discover_safely X y (n_initial p) else ret false) a = (Ok false, b) -> is_error b = is_error a).
  { intros a b. destruct (Nat.ltb 0 (n_initial p)); [|intros E; injection E as <-; reflexivity]. pose proof (discover_fine X y (n_initial p) a) as E. intros E2. rewrite E2 in E. apply E. reflexivity. }
  revert HM HM2 Ho Ho'. generalize (if Nat.ltb 0 (n_initial p) then discover_safely (D := D) (C := C) (G := G) X y (n_initial p) else ret false). intros m HI HM2 Ho Ho'. specialize (HM2 e1). unfold bind at 1 in Ho. unfold bind at 1 in Ho'. specialize (HI e1 e2 HA).
  destruct (m e1) as [[b|x] s1], (m e2) as [[b'|x'] s2]; try contradiction; destruct HI as [HI <-]; [|left; subst; cbn; split; [reflexivity|apply (ah_same _ _ _ HI)]].
  destruct b; [left; subst; cbn; split; [reflexivity|apply (ah_same _ _ _ HI)]|]. specialize (HM2 s1 eq_refl). assert (ES : seq 0 (n_iter p') = seq 0 n ++ seq n (n_iter p' - n)) by (rewrite <- seq_app; f_equal; lia). rewrite HN in Ho. rewrite ES in Ho'. unfold bind in Ho, Ho'.
  assert (HF : Forall (fun i => (i < n)%nat) (seq 0 n)) by (apply Forall_forall; intros i Hi; apply in_seq in Hi; lia). destruct (more_loop X y (seq 0 n) (seq n (n_iter p' - n)) s1 s2 HF HI) as [[H1 H2]|(H1 & H2 & e3 & H3 & H4)].
  - left. destruct (main_loop p X y (seq 0 n) s1) as [[b|x] t1], (main_loop p' X y (seq 0 n ++ seq n (n_iter p' - n)) s2) as [[b'|x'] t2]; cbn [fst snd] in *; try discriminate H1; injection H1 as <-; [|subst; split; [reflexivity|apply (ah_same _ _ _ H2)]].
    destruct b; [subst; cbn; split; [reflexivity|apply (ah_same _ _ _ H2)]|]. pose proof (more_finish clean X y t1 t2 H2) as HF2. destruct (finish clean X y t1) as [[v|x] w1], (finish clean X y t2) as [[v'|x'] w2]; try contradiction; destruct HF2 as [G1 <-]; subst; cbn; (split; [reflexivity|apply (ah_same _ _ _ G1)]).
  - right. exists s1. pose proof (loop_fine p X y (seq 0 n) s1) as HF2. destruct (main_loop p X y (seq 0 n) s1) as [r t1]; cbn [fst snd] in *. subst r. specialize (HF2 t1 eq_refl). exists t1, e3. split; [exact H3|]. split; [rewrite H2; clear -HS; destruct n as [|k]; [lia|]; rewrite seq_S, last_last; reflexivity|]. split; [congruence|]. split; [reflexivity|]. split; [exact Ho|]. rewrite Ho', H4. reflexivity.
Qed.
Lemma ended_early os clean X y (e : est) : n_iter p = n -> (n <= n_iter p')%nat -> (step e < n)%nat -> (S (step (snd (fit p os clean X y e))) < n)%nat \/ is_error (snd (fit p os clean X y e)) = true ->
  fst (fit p os clean X y e) = fst (fit p' os clean X y e) /\ same_but_length (snd (fit p os clean X y e)) (snd (fit p' os clean X y e)).
Proof.
  intros HN HL HS H. destruct (more_fit os clean X y e HN HL HS _ _ eq_refl eq_refl) as [E|(e0 & e1 & e1' & H1 & H2 & H3 & H4 & H5 & H6)]; [exact E|]. rewrite H5 in H. destruct (finish_keeps clean X y e1) as [K1 K2]. rewrite K1, K2, H2, H3 in H. destruct H; [lia|discriminate].
Qed.
End Params.
End More.

Lemma begins_trans {A} (l l' l'' : list A) : begins_with l l' -> begins_with l' l'' -> begins_with l l''.
Proof. intros [r ->] [r' ->]. exists (r ++ r'). rewrite app_assoc. reflexivity. Qed.
Lemma begins_refl {A} (l : list A) : begins_with l l.
Proof. exists []. rewrite app_nil_r. reflexivity. Qed.

(* what is shown to the recorder *)
Section Recorded.
Context {L : learner}.
Variables (D : discovery L) (C : composition L).
Notation est := (est D C (recorder L)).
Definition shown (e : est) : entry L := mkEntry (step e) (pool e) (population e) (best e).
Lemma iteration_recorded q X y i (e : est) l o e4 : logs e = Some l -> iteration D C (recorder L) q X y i e = (o, e4) -> begins_with (pool e) (pool e4) /\
  (logs e4 = Some l \/ logs e4 = Some (l ++ [shown e4])) /\ step e4 = i /\ (o = Ok None \/ o = Ok (Some false) -> logs e4 = Some (l ++ [shown e4])).
Proof.
  intros Hl H. unfold iteration in H. unfold bind at 1 in H. cbn [assign] in H. set (e0 := set_step i e) in H. assert (E0 : step e0 = i /\ logs e0 = Some l /\ pool e0 = pool e) by (cbn; auto). clearbody e0. destruct E0 as (A1 & A2 & A3).
  unfold bind at 1 in H. destruct (discover_keeps D C (recorder L) X y (n_rules q) e0) as (B1 & B2 & B3). destruct (discover_safely X y (n_rules q) e0) as [[[]|x] e1]; cbn [snd] in B1, B2, B3;
    try (injection H as <- <-; split; [rewrite <- A3; exact B3|]; split; [left; congruence|]; split; [congruence|intros [H|H]; discriminate H]).
  unfold bind at 1 in H. destruct (compose_keeps D C (recorder L) X y e1) as (C1 & C2 & C3). destruct (compose_safely X y e1) as [[[]|x] e2]; cbn [snd] in C1, C2, C3;
    try (injection H as <- <-; split; [rewrite C3, <- A3; exact B3|]; split; [left; congruence|]; split; [congruence|intros [H|H]; discriminate H]).
  assert (E2 : logs e2 = Some l) by congruence. unfold bind at 1, get at 1 in H. unfold bind at 1, lift at 1, the_logs in H. rewrite E2 in H. cbn [of_option literation recorder] in H. unfold bind at 1, lift at 1 in H. unfold bind at 1 in H. cbn [assign] in H.
  set (e3 := set_logs _ e2) in H. assert (E3 : step e3 = i /\ logs e3 = Some (l ++ [shown e2]) /\ pool e3 = pool e2 /\ compo e3 = compo e2) by (cbn; repeat split; congruence). clearbody e3. destruct E3 as (G1 & G2 & G3 & G4).
  unfold bind in H. destruct (stopping_keeps D C (recorder L) q e3) as (S1 & S2 & S3 & S4 & _). assert (ES : shown (snd (check_early_stopping q e3)) = shown e2) by (unfold shown, best, population, the_compo; rewrite S1, S3, S4, G1, G3, G4; f_equal; congruence).
  destruct (check_early_stopping q e3) as [[b|x] e5]; cbn [snd] in *; injection H as <- <-; (split; [rewrite S3, G3, C3, <- A3; exact B3|]; split; [right; congruence|]; split; [congruence|intros _; congruence]).
Qed.
Lemma loop_recorded q X y steps : forall (e : est) l, logs e = Some l -> let o := main_loop q X y steps e in begins_with (pool e) (pool (snd o)) /\ (exists l', logs (snd o) = Some l' /\ begins_with l l') /\
  (fst o = Ok false -> steps <> [] -> exists l0, logs (snd o) = Some (l0 ++ [shown (snd o)])).
Proof.
  induction steps as [|i steps IH]; intros e l Hl; cbv zeta; [cbn [main_loop ret fst snd]; split; [apply begins_refl|]; split; [exists l; split; [exact Hl|apply begins_refl]|intros _ H; contradiction]|].
  rewrite loop_iteration. unfold bind. destruct (iteration D C (recorder L) q X y i e) as [o e1] eqn:EI. destruct (iteration_recorded q X y i e l o e1 Hl EI) as (I1 & I2 & I3 & I4). destruct o as [[b|]|x].
  - cbn [ret fst snd]. split; [exact I1|]. split; [destruct I2 as [E|E]; rewrite E; eexists; (split; [reflexivity|]); [apply begins_refl|exists [shown e1]; reflexivity]|]. intros H _. injection H as ->. exists l. apply I4. right. reflexivity.
  - specialize (I4 (or_introl eq_refl)). destruct (IH e1 _ I4) as (H1 & (l' & H2 & H3) & H4). split; [eapply begins_trans; eassumption|]. split; [exists l'; split; [exact H2|eapply begins_trans; [exists [shown e1]; reflexivity|exact H3]]|].
    intros H _. destruct steps as [|j steps]; [cbn [main_loop ret snd]; exists l; exact I4|]. apply H4; [exact H|discriminate].
  - cbn [fst snd]. split; [exact I1|]. split; [destruct I2 as [E|E]; rewrite E; eexists; (split; [reflexivity|]); [apply begins_refl|exists [shown e1]; reflexivity]|]. intros H. discriminate H.
Qed.
Lemma finish_recorded X y (e : est) l : logs e = Some l -> pool (snd (finish false X y e)) = pool e /\ logs (snd (finish false X y e)) = Some l /\
  (fst (finish false X y e) = Ok tt -> exists b, best e = Ok (Some b) /\ elitist (snd (finish false X y e)) = Some (Learned b)).
Proof.
  intros Hl. unfold finish, bind, get, lift, assign, ret. destruct (best e) as [[b|]|x]; cbn; try (split; [reflexivity|]; split; [exact Hl|discriminate]). unfold the_logs. cbn. rewrite Hl. cbn. split; [reflexivity|]. split; [reflexivity|]. intros _. exists b. auto.
Qed.
Lemma rest_recorded q X y steps (e : est) l : logs e = Some l -> let o := (let* failed := main_loop q X y steps in if failed then ret tt else finish false X y) e in
  begins_with (pool e) (pool (snd o)) /\ exists l', logs (snd o) = Some l' /\ begins_with l l'.
Proof.
  intros Hl. cbv zeta. destruct (loop_recorded q X y steps e l Hl) as (H1 & (l' & H2 & H3) & _). unfold bind. destruct (main_loop q X y steps e) as [[b|x] e1]; cbn [snd] in *; [|eauto]. destruct b; [cbn; eauto|]. destruct (finish_recorded X y e1 l' H2) as (F1 & F2 & _). rewrite F1, F2. eauto.
Qed.
Lemma iteration_logged q X y i (e : est) o e1 : iteration D C (recorder L) q X y i e = (Ok o, e1) -> o <> Some true -> exists l, logs e1 = Some l.
Proof.
  intros H HO. unfold iteration in H. unfold bind at 1 in H. cbn [assign] in H. unfold bind at 1 in H. destruct (discover_safely X y (n_rules q) _) as [[[]|x] e2]; try (injection H as <- <-; contradiction); try discriminate H.
  unfold bind at 1 in H. destruct (compose_safely X y e2) as [[[]|x] e3]; try (injection H as <- <-; contradiction); try discriminate H. unfold bind at 1, get at 1 in H. unfold bind at 1, lift at 1 in H. destruct (the_logs e3) as [l|x]; [|discriminate H]. unfold bind at 1, lift at 1 in H. cbn [literation recorder] in H.
  unfold bind at 1 in H. cbn [assign] in H. set (e4 := set_logs _ e3) in H. assert (G1 : exists l, logs e4 = Some l) by (eexists; reflexivity). clearbody e4. unfold bind in H. destruct (stopping_keeps D C (recorder L) q e4) as (_ & S1 & _). destruct (check_early_stopping q e4) as [[b|x] e5]; cbn [snd] in *; [|discriminate H]. injection H as <- <-. rewrite S1. exact G1.
Qed.
Lemma loop_logged q X y steps : forall e e1 : est, steps <> [] -> main_loop q X y steps e = (Ok false, e1) -> exists l, logs e1 = Some l.
Proof.
  induction steps as [|i steps IH]; intros e e1 HN H; [contradiction|]. rewrite loop_iteration in H. unfold bind in H. destruct (iteration D C (recorder L) q X y i e) as [[[b|]|x] e2] eqn:EI; [| |discriminate H].
  - cbn in H. injection H as -> <-. apply (iteration_logged q X y i e _ _ EI). discriminate.
  - destruct steps as [|j steps]; [cbn in H; injection H as <-; apply (iteration_logged q X y i e _ _ EI); discriminate|]. apply (IH e2 e1); [discriminate|exact H].
Qed.
Lemma catch_true (m : St est unit) e : fst (catch m e) = Ok true -> is_error (snd (catch m e)) = true.
Proof. unfold catch. destruct (m e) as [[u|x] e1]; [discriminate|]. destruct (python_exn x); [reflexivity|discriminate]. Qed.
Lemma loop_true q X y steps : forall e e1 : est, main_loop q X y steps e = (Ok true, e1) -> is_error e1 = true.
Proof.
  induction steps as [|i steps IH]; intros e e1 H; [discriminate H|]. cbn [main_loop] in H. unfold bind at 1 in H. cbn [assign] in H. unfold bind at 1 in H. pose proof (catch_true (if Nat.eqb (n_rules q) 0 then raise TypeError else discover X y (n_rules q)) (set_step i e)) as HD. change (catch (if Nat.eqb (n_rules q) 0 then raise TypeError else discover X y (n_rules q))) with (discover_safely (D := D) (C := C) (G := recorder L) X y (n_rules q)) in HD.
  destruct (discover_safely X y (n_rules q) _) as [[[]|x] e2]; cbn [fst snd] in HD; [injection H as <-; apply HD; reflexivity| |discriminate H]. unfold bind at 1 in H. pose proof (catch_true (compose_step X y) e2) as HC. change (catch (compose_step X y)) with (compose_safely (D := D) (C := C) (G := recorder L) X y) in HC.
  destruct (compose_safely X y e2) as [[[]|x] e3]; cbn [fst snd] in HC; [injection H as <-; apply HC; reflexivity| |discriminate H]. unfold bind at 1, get at 1 in H. unfold bind at 1, lift at 1 in H. destruct (the_logs e3) as [l|x]; [|discriminate H]. unfold bind at 1, lift at 1 in H. cbn [literation recorder] in H.
  unfold bind at 1 in H. cbn [assign] in H. unfold bind at 1 in H. destruct (check_early_stopping q _) as [[b|x] e5]; [|discriminate H]. destruct b; [discriminate H|]. apply (IH _ _ H).
Qed.
Lemma prepare_logged q os X y (e e1 : est) : prepare q os X y e = (Ok tt, e1) -> logs e1 = Some [].
Proof.
  unfold prepare, bind, assign, lift. cbv beta iota zeta. destruct (check_X_y X y) as [u|x]; [|discriminate]. destruct (check_random_state (random_state q)) as [u2|x]; [|discriminate]. destruct (seed_sequence os (random_state q)) as [s|x]; [|discriminate]. destruct (dnew D X) as [d|x]; [|discriminate]. destruct (cnew C) as [c|x]; [|discriminate]. cbn. intros E. injection E as <-. reflexivity.
Qed.
(* the model of a fit is the one that was shown to the recorder last *)
Lemma model_recorded q os X y (e : est) : (0 < n_iter q)%nat -> fst (fit q os false X y e) = Ok tt -> is_error (snd (fit q os false X y e)) = false ->
  exists l0 pop b, logs (snd (fit q os false X y e)) = Some (l0 ++ [mkEntry (step (snd (fit q os false X y e))) (pool (snd (fit q os false X y e))) pop (Ok (Some b))]) /\ elitist (snd (fit q os false X y e)) = Some (Learned b).
Proof.
  intros HN. remember (fit q os false X y e) as o eqn:Ho. intros H1 H2. unfold fit in Ho. unfold bind at 1 in Ho. destruct (prepare q os X y e) as [[[]|x] e1] eqn:EP; [|subst o; discriminate H1]. pose proof (prepare_logged _ _ _ _ _ _ EP) as HL. unfold bind at 1 in Ho.
  assert (HM : forall a b : est, (if Nat.ltb 0 (n_initial q) then discover_safely X y (n_initial q) else ret false) a = (Ok true, b) -> is_error b = true).
  { intros a b. destruct (Nat.ltb 0 (n_initial q)); [|discriminate]. unfold discover_safely. intros E. pose proof (catch_true (if Nat.eqb (n_initial q) 0 then raise TypeError else discover X y (n_initial q)) a) as F. rewrite E in F. apply F. reflexivity. }
  assert (HK : forall a : est, logs (snd ((if Nat.ltb 0 (n_initial q) then discover_safely X y (n_initial q) else ret false) a)) = logs a).
  { intros a. destruct (Nat.ltb 0 (n_initial q)); [|reflexivity]. apply (discover_keeps D C (recorder L) X y (n_initial q) a). }
  revert HM HK Ho. generalize (if Nat.ltb 0 (n_initial q) then discover_safely (D := D) (C := C) (G := recorder L) X y (n_initial q) else ret false). intros m HM HK Ho. specialize (HK e1). specialize (HM e1). destruct (m e1) as [[b|x] e2]; [|subst o; discriminate H1]. cbn [snd] in HK.
  destruct b; [subst o; cbn in H2; rewrite (HM e2 eq_refl) in H2; discriminate H2|]. unfold bind in Ho. destruct (loop_recorded q X y (seq 0 (n_iter q)) e2 [] (eq_trans HK HL)) as (_ & (l' & L1 & _) & L2). pose proof (loop_true q X y (seq 0 (n_iter q)) e2) as HT.
  destruct (main_loop q X y (seq 0 (n_iter q)) e2) as [[b|x] e3]; [|subst o; discriminate H1]. destruct b; [subst o; cbn in H2; rewrite (HT e3 eq_refl) in H2; discriminate H2|]. cbn [fst snd] in *. destruct L2 as [l0 L2]; [reflexivity|destruct (n_iter q); [lia|discriminate]|].
  destruct (finish_recorded X y e3 _ L2) as (F1 & F2 & F3). destruct (finish_keeps D C (recorder L) false X y e3) as [F4 _]. rewrite <- Ho in F1, F2, F3, F4. destruct (F3 H1) as (b & B1 & B2). exists l0, (population e3), b. split; [|exact B2]. rewrite F2, F1, F4. unfold shown. rewrite B1. reflexivity.
Qed.
Lemma record_begins p p' os X y (e : est) : blind_to_length C -> same_but_iterations p p' -> (n_iter p <= n_iter p')%nat -> (step e < n_iter p)%nat ->
  begins_with (pool (snd (fit p os false X y e))) (pool (snd (fit p' os false X y e))) /\
  match logs (snd (fit p os false X y e)), logs (snd (fit p' os false X y e)) with Some l, Some l' => begins_with l l' | None, None => True | _, _ => False end.
Proof.
  intros HC HP HL HS. destruct (more_fit D C (recorder L) HC (n_iter p) p p' HP os false X y e eq_refl HL HS _ _ eq_refl eq_refl) as [[_ E]|(e0 & e1 & e1' & H1 & H2 & H3 & H4 & H5 & H6)].
  - rewrite (sl_pool _ _ E), (proj2 (proj2 (sl_parts _ _ E))). split; [apply begins_refl|]. destruct (logs _); [apply begins_refl|exact I].
  - rewrite H5, H6. pose proof (sl_pool _ _ (ah_same _ _ _ _ _ _ H1)) as EP. pose proof (proj2 (proj2 (sl_parts _ _ (ah_same _ _ _ _ _ _ H1)))) as EL.
    assert (HL2 : exists l, logs e1 = Some l). { apply (loop_logged p X y (seq 0 (n_iter p)) e0 e1); [destruct (n_iter p); [lia|discriminate]|exact H4]. }
    destruct HL2 as [l El]. destruct (finish_recorded X y e1 l El) as (F1 & F2 & _). rewrite El in EL. destruct (rest_recorded p' X y (seq (n_iter p) (n_iter p' - n_iter p)) e1' l (eq_sym EL)) as (R1 & l' & R2 & R3). rewrite F1, F2, EP, R2. auto.
Qed.
End Recorded.
