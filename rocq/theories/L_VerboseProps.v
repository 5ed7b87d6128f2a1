(* What a whole call of fit puts out. *)
From Coq Require Import String Lia.
From Verif Require Import PyNum PyList PyMon PyRng L_Num L_List M_Matching M_Rule M_Mixing M_Fit S_Fit L_Fit L_FitProps M_Verbose S_Verbose L_Verbose.

Section F.
Variable L : learner.
Variables (D : discovery L) (C : composition L) (G : logger L).
Variables (verbose : Z) (empty : list string).
Notation est := (est D C G).

Lemma prepare_split p os X y (e : est) : prepare p os X y e = bind (set_up p os X y) (fun _ => open_logs p) e.
Proof.
  unfold prepare, set_up, open_logs, bind, assign, lift.
  destruct (check_X_y X y) as [[]|]; [|reflexivity]. destruct (check_random_state _) as [[]|]; [|reflexivity].
  destruct (seed_sequence _ _); [|reflexivity]. cbv zeta. destruct (dnew D X); [|reflexivity]. destruct (cnew C); [|reflexivity].
  destruct (linit G); reflexivity.
Qed.
Lemma set_up_keeps p os X y (e : est) : step (snd (set_up p os X y e)) = step e /\ previous (snd (set_up p os X y e)) = Fin 0 /\ is_error (snd (set_up p os X y e)) = false.
Proof.
  unfold set_up, bind, assign, lift.
  destruct (check_X_y X y) as [[]|]; [|auto]. destruct (check_random_state _) as [[]|]; [|auto].
  destruct (seed_sequence _ _); [|auto]. cbv zeta. destruct (dnew D X); [|auto]. destruct (cnew C); auto.
Qed.
Lemma open_logs_keeps p (e : est) : step (snd (open_logs p e)) = step e /\ previous (snd (open_logs p e)) = previous e /\ is_error (snd (open_logs p e)) = is_error e.
Proof. unfold open_logs, bind, assign, lift. destruct (linit G); auto. Qed.
Lemma finish_keeps clean X y (e : est) : step (snd (finish clean X y e)) = step e /\ is_error (snd (finish clean X y e)) = is_error e.
Proof.
  unfold finish, bind, get, assign, lift. destruct (best e) as [el|]; [|auto]. destruct (of_option AttributeError el) as [b|]; [|auto].
  unfold the_logs. cbn. destruct (logs e) as [l|]; [|auto]. cbn. destruct (lfinal G X y (pool e) (Learned b) l) as [l'|]; [|auto].
  destruct clean; [|auto]. unfold cleanup, bind, get, lift, assign. cbn. destruct (subpopulation L (ebits b) (epool b)) as [sub|]; [|auto]. cbn.
  unfold the_disc. cbn. destruct (disc e); [|auto]. cbn. unfold the_compo. cbn. destruct (compo e); auto.
Qed.

(* the lines about bounds, the line about the initial rules *)
Definition bound_lines (p : params) (e : est) : list output :=
  if Z.leb 1 verbose then map (fun key => Progress (S (step e)) (n_iter p) (EmptyBounds key)) empty else [].
Definition initial_lines (p : params) (e : est) : list output :=
  if Nat.ltb 0 (n_initial p) then [Progress (S (step e)) (n_iter p) (Generating (n_initial p))] else [].
Definition fit_out (p : params) (e : est) (r : res unit) (e' : est) (out : list output) : Prop :=
  exists bl o, out = bl ++ o /\ (bl = [] \/ bl = bound_lines p e) /\
  match r with
  | Raise _ => clean_out verbose (Fin 0) o
  | Ok _ => bl = bound_lines p e /\
      (is_error e' = true /\ failed_out verbose (Fin 0) o \/
       is_error e' = false /\ clean_out verbose (Fin 0) o /\
       exists k stop, (k <= n_iter p)%nat /\ step e' = (match k with O => step e | S k' => k' end)%nat /\
        filter printed o = talk verbose (initial_lines p e ++ lines_until (n_iter p) (n_rules p) k) ++ stop /\
        (stop = [] /\ k = n_iter p \/ (0 < k)%nat /\ (0 < patience p)%Z /\ stop = [StoppedAfter (patience p); ElitistWas (Fin 0)]))
  end.
Lemma bounds_goes p (e : est) t : init_bounds_v verbose empty p (e, t) = (Ok tt, (e, t ++ bound_lines p e)).
Proof.
  unfold init_bounds_v. rewrite bounds_eq. do 3 f_equal. unfold bound_lines, line. destruct (Z.leb 1 verbose).
  - induction empty; cbn; [reflexivity|]. now rewrite IHl.
  - induction empty; cbn; auto.
Qed.
Lemma filter_all {A} (f : A -> bool) l : Forall (fun a => f a = true) l -> filter f l = l.
Proof. induction 1; cbn; [reflexivity|]. rewrite H. now f_equal. Qed.

Definition first (p : params) (X : matrix) (y : targets) : St est bool := if Nat.ltb 0 (n_initial p) then discover_safely X y (n_initial p) else ret false.
Definition first_v (p : params) (X : matrix) (y : targets) : St (est * list output) bool :=
  if Nat.ltb 0 (n_initial p) then discover_safely_v verbose p X y (n_initial p) else ret false.
Lemma fit_eq p os clean X y (e : est) : fit p os clean X y e =
  match set_up p os X y e with
  | (Raise x, e0) => (Raise x, e0)
  | (Ok _, e0) =>
      match open_logs p e0 with
      | (Raise x, e1) => (Raise x, e1)
      | (Ok _, e1) =>
          match first p X y e1 with
          | (Raise x, e2) => (Raise x, e2)
          | (Ok true, e2) => (Ok tt, e2)
          | (Ok false, e2) =>
              match main_loop p X y (seq 0 (n_iter p)) e2 with
              | (Raise x, e3) => (Raise x, e3)
              | (Ok true, e3) => (Ok tt, e3)
              | (Ok false, e3) => finish clean X y e3
              end
          end
      end
  end.
Proof.
  unfold fit. unfold bind at 1. rewrite prepare_split. unfold bind at 1. destruct (set_up p os X y e) as [[[]|x] e0]; [|reflexivity].
  destruct (open_logs p e0) as [[[]|x] e1]; [|reflexivity]. unfold bind at 1. fold (first p X y).
  destruct (first p X y e1) as [[[|]|x] e2]; [reflexivity| |reflexivity]. unfold bind at 1.
  destruct (main_loop p X y (seq 0 (n_iter p)) e2) as [[[|]|x] e3]; reflexivity.
Qed.
Lemma fit_v_eq p os clean X y (e : est) t : fit_v verbose empty p os clean X y (e, t) =
  match set_up p os X y e with
  | (Raise x, e0) => (Raise x, (e0, t))
  | (Ok _, e0) =>
      match open_logs p e0 with
      | (Raise x, e1) => (Raise x, (e1, t ++ bound_lines p e0))
      | (Ok _, e1) =>
          match first_v p X y (e1, t ++ bound_lines p e0) with
          | (Raise x, s2) => (Raise x, s2)
          | (Ok true, s2) => (Ok tt, s2)
          | (Ok false, s2) =>
              match main_loop_v verbose p X y (seq 0 (n_iter p)) s2 with
              | (Raise x, s3) => (Raise x, s3)
              | (Ok true, s3) => (Ok tt, s3)
              | (Ok false, s3) => silently (finish clean X y) s3
              end
          end
      end
  end.
Proof.
  unfold fit_v. unfold bind at 1, silently at 1. cbn [fst snd]. destruct (set_up p os X y e) as [[[]|x] e0]; [|reflexivity].
  unfold bind at 1. rewrite bounds_goes. unfold bind at 1, silently at 1. cbn [fst snd].
  destruct (open_logs p e0) as [[[]|x] e1]; [|reflexivity]. unfold bind at 1. fold (first_v p X y).
  destruct (first_v p X y (e1, t ++ bound_lines p e0)) as [[[|]|x] s2]; [reflexivity| |reflexivity]. unfold bind at 1.
  destruct (main_loop_v verbose p X y (seq 0 (n_iter p)) s2) as [[[|]|x] s3]; reflexivity.
Qed.
Lemma fit_goes p os clean X y : goes L D C G (fit_v verbose empty p os clean X y) (fit p os clean X y) (fit_out p).
Proof.
  intros e t. rewrite fit_v_eq, fit_eq.
  destruct (set_up_keeps p os X y e) as (A1 & A2 & A3). destruct (set_up p os X y e) as [[[]|x] e0]; cbn [fst snd] in *.
  2: { exists []. rewrite app_nil_r. split; [reflexivity|]. exists [], []. split; auto. split; auto. apply clean_nil. }
  assert (HBL : bound_lines p e0 = bound_lines p e) by (unfold bound_lines; now rewrite A1). rewrite HBL.
  destruct (open_logs_keeps p e0) as (B1 & B2 & B3). destruct (open_logs p e0) as [[[]|x] e1]; cbn [fst snd] in *.
  2: { exists (bound_lines p e). split; [reflexivity|]. exists (bound_lines p e), []. split; [now rewrite app_nil_r|]. split; auto. apply clean_nil. }
  set (t1 := t ++ bound_lines p e).
  assert (HI : goes L D C G (first_v p X y) (first p X y)
     (fun e r e' out => previous e' = previous e /\ step e' = step e /\ match r with
       | Ok true => is_error e' = true /\ failed_out verbose (previous e) out
       | Ok false => is_error e' = is_error e /\ clean_out verbose (previous e) out /\ filter printed out = talk verbose (initial_lines p e)
       | Raise _ => clean_out verbose (previous e) out
       end)).
  { unfold initial_lines, first, first_v. destruct (Nat.ltb 0 (n_initial p)).
    - eapply goes_weaken; [apply discover_spec|]. intros e2 out (H1 & H2 & H3). split; auto. split; auto.
      pose proof (discover_safely_err L D C G X y (n_initial p) e2) as HE. destruct (discover_safely X y (n_initial p) e2) as [[[|]|x] e3]; cbn in *; auto.
    - eapply goes_weaken; [apply ret_goes|]. intros e2 out (_ & _ & ->). cbn. split; auto. split; auto. split; auto. split; [apply clean_nil|].
      unfold talk. destruct (Z.leb 4 verbose); reflexivity. }
  destruct (HI e1 t1) as (o1 & E1 & P1 & S1 & H1). rewrite E1. clear E1.
  destruct (first p X y e1) as [[[|]|x] e2]; cbn [fst snd] in *.
  { destruct H1 as [HE H1]. exists (bound_lines p e ++ o1). rewrite app_assoc. split; [reflexivity|]. exists (bound_lines p e), o1. split; auto. split; auto. split; auto. left.
    rewrite B2, A2 in H1. auto. }
  2: { exists (bound_lines p e ++ o1). rewrite app_assoc. split; [reflexivity|]. exists (bound_lines p e), o1. split; auto. split; auto. rewrite B2, A2 in H1. auto. }
  destruct H1 as (R1 & C1 & F1). rewrite B2, A2 in C1. assert (HP2 : previous e2 = Fin 0) by congruence.
  destruct (loop_goes L D C G verbose p X y (n_iter p) 0 e2 (t1 ++ o1)) as (o2 & E2 & P2 & H2). rewrite E2. clear E2.
  pose proof (loop_err L D C G p X y (seq 0 (n_iter p)) e2) as RE. rewrite HP2 in H2.
  destruct (main_loop p X y (seq 0 (n_iter p)) e2) as [[[|]|x] e3]; cbn [fst snd] in *.
  { exists (bound_lines p e ++ o1 ++ o2). unfold t1. rewrite !app_assoc. split; [reflexivity|]. exists (bound_lines p e), (o1 ++ o2). split; [now rewrite app_assoc|]. split; auto. split; auto.
    left. split; auto. apply failed_app; auto. }
  2: { exists (bound_lines p e ++ o1 ++ o2). unfold t1. rewrite !app_assoc. split; [reflexivity|]. exists (bound_lines p e), (o1 ++ o2). split; [now rewrite app_assoc|]. split; auto. apply clean_app; auto. }
  destruct H2 as (C2 & k & stop & HK & HS & HF & HD). unfold silently. cbn [fst snd].
  destruct (finish_keeps clean X y e3) as (K1 & K2). destruct (finish clean X y e3) as [[[]|x] e4]; cbn [fst snd] in *;
    (exists (bound_lines p e ++ o1 ++ o2); unfold t1; rewrite !app_assoc; split; [reflexivity|]; exists (bound_lines p e), (o1 ++ o2); split; [now rewrite app_assoc|]; split; [auto|]).
  - split; auto. right. split; [cbn [orb] in RE; congruence|]. split; [apply clean_app; auto|]. exists k, stop. split; auto. split; [rewrite K1, HS; destruct k; [congruence|reflexivity]|]. split; auto.
    rewrite filter_app, F1, HF, talk_app, app_assoc. unfold initial_lines, lines_until. rewrite B1, A1. reflexivity.
  - apply clean_app; auto.
Qed.

(* ----- statements ----- *)
Section S.
Variables (p : params) (os : Z) (clean : bool) (X : matrix) (y : targets) (e e' : est) (r : res unit) (out : list output).
Hypothesis HE : fit_v verbose empty p os clean X y (e, []) = (r, (e', out)).
Lemma run_out : fit p os clean X y e = (r, e') /\ fit_out p e r e' out.
Proof.
  destruct (fit_goes p os clean X y e []) as (o & H & HO). rewrite HE in H. cbn [app] in H. injection H as -> -> ->.
  split; [destruct (fit p os clean X y e); reflexivity|exact HO].
Qed.
Lemma bound_progress : Forall (fun o => about_bounds o = true) (bound_lines p e) /\ (Z.leb 1 verbose = false -> bound_lines p e = []).
Proof.
  unfold bound_lines. destruct (Z.leb 1 verbose); [|auto]. split; [|discriminate]. clear HE. induction empty; constructor; auto.
Qed.
Lemma clean_all o : clean_out verbose (Fin 0) o -> Forall (fun w => about_bounds w = false) o. Proof. intros H. apply H. Qed.
Lemma failed_parts o : failed_out verbose (Fin 0) o -> exists a w x, o = a ++ [w] /\ reports w x /\ clean_out verbose (Fin 0) a.
Proof. auto. Qed.
Lemma reports_failure w x : reports w x -> failure w = true /\ is_progress w = false /\ about_bounds w = false /\ forall f, w <> ElitistWas f.
Proof. unfold reports. destruct x; intros ->; (split; [reflexivity|]; split; [reflexivity|]; split; [reflexivity|]; intros f HF; discriminate HF). Qed.
Lemma out_quiet : (verbose < 4)%Z -> Forall (fun o => is_progress o = true -> about_bounds o = true /\ (1 <= verbose)%Z) out.
Proof.
  intros HV. apply Z.leb_gt in HV. destruct run_out as (_ & bl & o & -> & HB & HO). apply Forall_app. split.
  - destruct bound_progress as [H1 H2]. destruct HB as [->| ->]; [constructor|]. destruct (Z.leb_spec 1 verbose) as [H3|H3].
    + eapply Forall_impl; [|exact H1]. intros w Hw _. cbv beta in Hw. auto.
    + rewrite H2; auto.
  - assert (HN : clean_out verbose (Fin 0) o \/ failed_out verbose (Fin 0) o) by (destruct r as [[]|]; [destruct HO as (_ & [(_ & H)|(_ & H & _)])|]; auto).
    destruct HN as [HN|(a & w & x & -> & HW & HN)].
    + eapply Forall_impl; [|exact (proj1 (proj2 HN) HV)]. cbv beta. intros w H1 H2. congruence.
    + apply Forall_app. split; [eapply Forall_impl; [|exact (proj1 (proj2 HN) HV)]; cbv beta; intros v H1 H2; congruence|].
      constructor; [|constructor]. intros H. destruct (reports_failure w x HW) as (_ & H1 & _). congruence.
Qed.
Lemma out_zero f : In (ElitistWas f) out -> f = Fin 0.
Proof.
  destruct run_out as (_ & bl & o & -> & HB & HO). intros H. apply in_app_or in H. destruct H as [H|H].
  - destruct bound_progress as [H1 _]. destruct HB as [->| ->]; [easy|]. rewrite Forall_forall in H1. specialize (H1 _ H). discriminate.
  - assert (HN : clean_out verbose (Fin 0) o \/ failed_out verbose (Fin 0) o) by (destruct r as [[]|]; [destruct HO as (_ & [(_ & H0)|(_ & H0 & _)])|]; auto).
    destruct HN as [HN|(a & w & x & -> & HW & HN)]; [apply HN; auto|].
    apply in_app_or in H. destruct H as [H|[H|[]]]; [apply HN; auto|]. destruct (reports_failure w x HW) as (_ & _ & _ & H1). now destruct (H1 f).
Qed.
Lemma bound_no_failure : Forall (fun w => failure w = false) (bound_lines p e).
Proof. eapply Forall_impl; [|apply bound_progress]. intros []; cbn; auto; discriminate. Qed.
Lemma out_failure : r = Ok tt ->
  (is_error e' = true -> exists o w x, out = o ++ [w] /\ reports w x /\ Forall (fun v => failure v = false) o) /\
  (is_error e' = false -> Forall (fun v => failure v = false) out).
Proof.
  intros HR. destruct run_out as (_ & bl & o & -> & HB & HO). rewrite HR in HO. destruct HO as (-> & [(H1 & a & w & x & -> & HW & HC)|(H1 & HC & _)]); (split; [intros H; try congruence|intros H; try congruence]).
  - exists (bound_lines p e ++ a), w, x. rewrite app_assoc. split; auto. split; auto. apply Forall_app. split; [apply bound_no_failure|apply HC].
  - apply Forall_app. split; [apply bound_no_failure|apply HC].
Qed.
Lemma out_raised x : r = Raise x -> Forall (fun v => failure v = false) out.
Proof.
  intros HR. destruct run_out as (_ & bl & o & -> & HB & HO). rewrite HR in HO. apply Forall_app. split; [|apply HO].
  destruct HB as [->| ->]; [constructor|apply bound_no_failure].
Qed.
Lemma out_lines : r = Ok tt -> is_error e' = false -> (4 <= verbose)%Z ->
  exists k stop, (k <= n_iter p)%nat /\ step e' = (match k with O => step e | S k' => k' end)%nat /\
    filter printed out = map (fun key => Progress (S (step e)) (n_iter p) (EmptyBounds key)) empty ++
      (if Nat.ltb 0 (n_initial p) then [Progress (S (step e)) (n_iter p) (Generating (n_initial p))] else []) ++
      lines_until (n_iter p) (n_rules p) k ++ stop /\
    (stop = [] /\ k = n_iter p \/ (0 < k)%nat /\ (0 < patience p)%Z /\ stop = [StoppedAfter (patience p); ElitistWas (Fin 0)]).
Proof.
  intros HR HX HV. destruct run_out as (_ & bl & o & -> & HB & HO). rewrite HR in HO. destruct HO as (-> & [(H1 & _)|(_ & HC & k & stop & H1 & H2 & H3 & H4)]); [congruence|].
  exists k, stop. split; auto. split; auto. split; auto. rewrite filter_app, H3. unfold talk. destruct (Z.leb_spec 4 verbose); [|lia]. rewrite <- app_assoc.
  f_equal. unfold bound_lines. destruct (Z.leb_spec 1 verbose); [|lia]. apply filter_all. clear. induction empty; constructor; auto.
Qed.
End S.

(* ----- the model afterwards ----- *)
Lemma discover_elitist X y n (e : est) : elitist (snd (discover_safely X y n e)) = elitist e.
Proof.
  unfold discover_safely, catch. destruct (Nat.eqb n 0); [reflexivity|].
  assert (H : elitist (snd (discover X y n e)) = elitist e).
  { unfold discover, bind, get, lift. destruct (best e); [|reflexivity]. destruct (the_disc e); [|reflexivity].
    destruct (of_option _ _); [|reflexivity]. destruct (drun _ _ _ _ _ _ _ _) as [r [k d']]. unfold assign. destruct r; reflexivity. }
  destruct (discover X y n e) as [[[]|x] e']; cbn in *; auto. destruct (python_exn x); auto.
Qed.
Lemma compose_elitist X y (e : est) : elitist (snd (compose_safely X y e)) = elitist e.
Proof.
  unfold compose_safely, catch.
  assert (H : elitist (snd (compose_step X y e)) = elitist e).
  { unfold compose_step, bind, get, lift. destruct (the_compo e); [|reflexivity]. destruct (of_option _ _); [|reflexivity].
    destruct (crun _ _ _ _ _ _ _) as [r c']. unfold assign. destruct r; reflexivity. }
  destruct (compose_step X y e) as [[[]|x] e']; cbn in *; auto. destruct (python_exn x); auto.
Qed.
Lemma check_elitist p (e : est) : elitist (snd (check_early_stopping p e)) = elitist e.
Proof.
  unfold check_early_stopping. destruct (Z.ltb 0 (patience p)); [|auto]. unfold bind, get, lift, assign, ret.
  destruct (best e) as [el|]; [|auto]. destruct (of_option AttributeError el); [|auto]. destruct (nlt _ _); auto.
Qed.
Lemma loop_elitist p X y : forall st (e : est), elitist (snd (main_loop p X y st e)) = elitist e.
Proof.
  induction st as [|i st IH]; intros e; [reflexivity|]. rewrite loop_cons. pose proof (discover_elitist X y (n_rules p) (set_step i e)) as H1. change (elitist (set_step i e)) with (elitist e) in H1.
  destruct (discover_safely X y (n_rules p) (set_step i e)) as [[[|]|x] e1]; cbn [snd] in *; auto. pose proof (compose_elitist X y e1) as H2.
  destruct (compose_safely X y e1) as [[[|]|x] e2]; cbn [snd] in *; try (rewrite H2; auto; fail).
  unfold after_logs. destruct (the_logs e2) as [l|x]; [|cbn; congruence]. destruct (literation _ _ _ _ _ _ _ _) as [l'|x]; [|cbn; congruence].
  pose proof (check_elitist p (set_logs (Some l') e2)) as H3. change (elitist (set_logs (Some l') e2)) with (elitist e2) in H3. destruct (check_early_stopping p (set_logs (Some l') e2)) as [[[|]|x] e3]; cbn [snd] in *; try (rewrite H3; cbn; congruence).
  rewrite IH, H3. cbn. congruence.
Qed.
Lemma set_up_elitist p os X y (e : est) : elitist (snd (set_up p os X y e)) = Some Placeholder.
Proof.
  unfold set_up, bind, assign, lift.
  destruct (check_X_y X y) as [[]|]; [|auto]. destruct (check_random_state _) as [[]|]; [|auto].
  destruct (seed_sequence _ _); [|auto]. cbv zeta. destruct (dnew D X); [|auto]. destruct (cnew C); auto.
Qed.
Lemma finish_learned clean X y (e : est) : fst (finish clean X y e) = Ok tt -> exists b, elitist (snd (finish clean X y e)) = Some (Learned b).
Proof.
  unfold finish, bind, get, assign, lift. destruct (best e) as [el|]; [|discriminate]. destruct (of_option AttributeError el) as [b|]; [|discriminate].
  unfold the_logs. cbn. destruct (logs e) as [l|]; [|discriminate]. cbn. destruct (lfinal G X y (pool e) (Learned b) l) as [l'|]; [|discriminate].
  destruct clean; [|cbn; eauto]. unfold cleanup, bind, get, lift, assign. cbn. destruct (subpopulation L (ebits b) (epool b)) as [sub|]; [|discriminate]. cbn.
  unfold the_disc. cbn. destruct (disc e); [|discriminate]. cbn. unfold the_compo. cbn. destruct (compo e); [|discriminate]. cbn. eauto.
Qed.
Lemma fit_model p os clean X y (e e' : est) : fit p os clean X y e = (Ok tt, e') ->
  (is_error e' = true -> elitist e' = Some Placeholder) /\ (is_error e' = false -> exists b, elitist e' = Some (Learned b)).
Proof.
  rewrite fit_eq. pose proof (set_up_elitist p os X y e) as H0. destruct (set_up_keeps p os X y e) as (_ & _ & A). destruct (set_up p os X y e) as [[[]|x] e0]; [|discriminate]. cbn [snd] in *.
  assert (H1 : elitist (snd (open_logs p e0)) = elitist e0) by (unfold open_logs, bind, assign, lift; destruct (linit G); reflexivity).
  destruct (open_logs_keeps p e0) as (_ & _ & B). destruct (open_logs p e0) as [[[]|x] e1]; [|discriminate]. cbn [snd] in *.
  assert (H2 : elitist (snd (first p X y e1)) = elitist e1) by (unfold first; destruct (Nat.ltb 0 (n_initial p)); [apply discover_elitist|reflexivity]).
  assert (RE1 : match first p X y e1 with (Ok b, e') => is_error e' = (b || is_error e1)%bool | _ => True end)
    by (unfold first; destruct (Nat.ltb 0 (n_initial p)); [apply discover_safely_err|reflexivity]).
  destruct (first p X y e1) as [[[|]|x] e2]; [|cbn [snd orb] in *|discriminate].
  { intros H. injection H as <-. cbn [snd orb] in *. split; [congruence|]. rewrite RE1. discriminate. }
  pose proof (loop_elitist p X y (seq 0 (n_iter p)) e2) as H3. pose proof (loop_err L D C G p X y (seq 0 (n_iter p)) e2) as RE2.
  destruct (main_loop p X y (seq 0 (n_iter p)) e2) as [[[|]|x] e3]; [|cbn [snd orb] in *|discriminate].
  { intros H. injection H as <-. cbn [snd orb] in *. split; [congruence|]. rewrite RE2. discriminate. }
  intros H. pose proof (finish_learned clean X y e3) as H4. destruct (finish_keeps clean X y e3) as [_ K]. rewrite H in H4, K. cbn [fst snd] in *.
  split; [congruence|auto].
Qed.
Lemma fit_model_text p os clean X y (e e' : est) : fit p os clean X y e = (Ok tt, e') -> exists m, elitist e' = Some m /\
  (is_error e' = true -> model_text m = Raise TypeError) /\
  (is_error e' = false -> exists b, m = Learned b /\
     model_text m = Ok [("error", Fin (serror (eatt b))); ("fitness", sfitness (eatt b)); ("complexity", Fin (qofnat (scomplexity (eatt b))))]%string).
Proof.
  intros H. destruct (fit_model p os clean X y e e' H) as [H1 H2]. destruct (is_error e').
  - exists Placeholder. split; auto. split; [reflexivity|discriminate].
  - destruct (H2 eq_refl) as [b HB]. exists (Learned b). split; auto. split; [discriminate|]. intros _. exists b. split; reflexivity.
Qed.
End F.
