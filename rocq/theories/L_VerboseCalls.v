(* What fit puts out, compared with what its components were asked. *)
From Coq Require Import String Lia.
From Verif Require Import PyNum PyList PyMon PyRng L_Num L_List M_Matching M_Rule M_Mixing M_Fit S_Fit L_Fit L_FitProps M_Verbose S_Verbose L_Verbose L_VerboseProps.

Section R.
Variable L : learner.
Variables (D : discovery L) (C : composition L) (G : logger L).
Variables (verbose : Z) (empty : list string).
Notation RD := (recorded_d D).
Notation RC := (recorded_c C).
Notation est := (est RD RC G).
Notation goes := (goes L RD RC G).

Definition calm (e : est) : Prop := Forall (fun c => exists rs, d_out c = Ok rs) (dcalls e) /\ Forall (fun c => c_out c = Ok tt) (ccalls e).
Definition raised_by (e : est) (x : exn) : Prop :=
  (exists c, In c (dcalls e) /\ d_out c = Raise x) \/ (exists c, In c (ccalls e) /\ c_out c = Raise x).
Definition warned (out : list output) (e' : est) : Prop := exists o w x, out = o ++ [w] /\ reports w x /\ (raised_by e' x \/ calm e').
Definition counted (e e' : est) (out : list output) : Prop :=
  exists cs, dcalls e' = dcalls e ++ cs /\ length (filter empty_warning out) = length (filter left_empty cs).
Definition rec {A} (bad : A -> bool) (e : est) (r : res A) (e' : est) (out : list output) : Prop :=
  counted e e' out /\ (calm e -> match r with Ok a => if bad a then warned out e' else calm e' | Raise _ => True end).

Lemma counted_refl e out : filter empty_warning out = [] -> counted e e out.
Proof. intros H. exists []. rewrite app_nil_r, H. auto. Qed.
Lemma counted_trans e1 e2 e3 a b : counted e1 e2 a -> counted e2 e3 b -> counted e1 e3 (a ++ b).
Proof. intros (c1 & H1 & H2) (c2 & H3 & H4). exists (c1 ++ c2). rewrite !filter_app, !app_length, H3, H1, app_assoc. auto. Qed.
Lemma warned_app a b e' : warned b e' -> warned (a ++ b) e'.
Proof. intros (o & w & x & -> & H). exists (a ++ o), w, x. now rewrite app_assoc. Qed.

Lemma discover_rec X y n (e : est) : match discover X y n e with
  | (Ok _, e') => exists c rs, dcalls e' = dcalls e ++ [c] /\ d_pool c = pool e /\ d_out c = Ok rs /\ pool e' = pool e ++ rs /\ ccalls e' = ccalls e
  | (Raise x, e') => ccalls e' = ccalls e /\ (dcalls e' = dcalls e \/ exists c, dcalls e' = dcalls e ++ [c] /\ d_out c = Raise x)
  end.
Proof.
  destruct (discover_cases L D C G X y e n) as [(el & s & d & EB & ED & ES & HE)|(x & HE & _)]; rewrite HE; [|auto].
  unfold disc_out, disc_after. assert (HDC : dcalls e = snd d) by (unfold dcalls; now rewrite ED).
  destruct (drun D X y (pool e) el n s (fst d)) as [[rs|x] [k d']]; cbn [fst].
  - exists (mkDcall (pool e) el n s (Ok rs)), rs. rewrite HDC. repeat split.
  - split; [reflexivity|]. right. exists (mkDcall (pool e) el n s (Raise x)). rewrite HDC. split; reflexivity.
Qed.
Lemma compose_rec X y (e : est) : match compose_step X y e with
  | (Ok _, e') => dcalls e' = dcalls e /\ exists c, ccalls e' = ccalls e ++ [c] /\ c_out c = Ok tt
  | (Raise x, e') => dcalls e' = dcalls e /\ (ccalls e' = ccalls e \/ exists c, ccalls e' = ccalls e ++ [c] /\ c_out c = Raise x)
  end.
Proof.
  unfold compose_step, bind, get, lift, the_compo. destruct (compo e) as [c|] eqn:EC; cbn [of_option]; [|auto].
  destruct (nth_error (cseeds e) (step e)) as [s|]; cbn [of_option]; [|auto].
  assert (HCC : ccalls e = snd c) by (unfold ccalls; now rewrite EC). cbn [crun recorded_c].
  destruct (crun C X y (max_len e) (pool e) s (fst c)) as [[[]|x] c'] eqn:ER; unfold assign; (split; [reflexivity|]).
  - eexists. split; [rewrite HCC; reflexivity|reflexivity].
  - right. eexists. split; [rewrite HCC; reflexivity|reflexivity].
Qed.
Lemma same_calls_calm (e e' : est) : dcalls e' = dcalls e -> ccalls e' = ccalls e -> calm e -> calm e'.
Proof. unfold calm. intros -> ->. auto. Qed.
Lemma warnings_line p pr m (e : est) : filter empty_warning (line L RD RC G verbose p pr m e) = [].
Proof. unfold line. destruct (Z.leb pr verbose); reflexivity. Qed.
Lemma reports_no_empty w x : reports w x -> empty_warning w = false.
Proof. unfold reports. destruct x; intros ->; reflexivity. Qed.

Lemma discover_goes p X y n : goes (discover_safely_v verbose p X y n) (discover_safely X y n) (rec (fun b => b)).
Proof.
  destruct (Nat.eq_dec n 0) as [->|HN].
  - eapply goes_weaken; [apply no_rules_goes|]. intros e out (HR & HE & ->). unfold rec. rewrite HR, HE. split; [exists []; rewrite app_nil_r; auto|].
    intros HC. exists [], (FailedOther TypeError), TypeError. split; auto. split; [reflexivity|]. right. exact HC.
  - eapply goes_weaken; [apply discover_safely_goes; auto|]. intros e out [HO HE]. unfold rec. pose proof (discover_rec X y n e) as HD.
    destruct (discover X y n e) as [[[]|x] e1] eqn:ED; cbn [fst snd] in *.
    + destruct HO as [HR ->]. rewrite HR in HE |- *. rewrite HE. destruct HD as (c & rs & H1 & H2 & H3 & H4 & H5). split.
      * exists [c]. split; auto. rewrite filter_app, warnings_line. cbn [app filter]. unfold empties, left_empty. rewrite H4, H2, H3.
        destruct (pool e), rs; reflexivity.
      * intros [HC1 HC2]. split; [|now rewrite H5]. rewrite H1. apply Forall_app. split; auto. constructor; eauto.
    + unfold ended in HO. destruct (python_exn x) eqn:EP.
      * destruct HO as (HR & w & HW & ->). rewrite HR in HE |- *. rewrite HE. destruct HD as (H1 & H2).
        assert (HZ : filter empty_warning (line L RD RC G verbose p 4 (Generating n) e ++ [w]) = []).
        { rewrite filter_app, warnings_line. cbn. rewrite (reports_no_empty _ _ HW). reflexivity. }
        split.
        -- destruct H2 as [H2|(c & H2 & H3)]; [exists []; rewrite app_nil_r, HZ; auto|]. exists [c]. rewrite HZ. split; auto. cbn. unfold left_empty. rewrite H3. destruct (d_pool c); reflexivity.
        -- intros HC. exists (line L RD RC G verbose p 4 (Generating n) e), w, x. split; auto. split; auto. destruct H2 as [H2|(c & H2 & H3)].
           ++ right. eapply same_calls_calm; [| |exact HC]; auto.
           ++ left. left. exists c. split; auto. change (dcalls (set_status true true e1)) with (dcalls e1). rewrite H2. apply in_or_app. right. left. auto.
      * destruct HO as [HR ->]. rewrite HR in HE |- *. rewrite HE. destruct HD as (H1 & H2). split; [|auto].
        destruct H2 as [H2|(c & H2 & H3)]; [exists []; rewrite app_nil_r, warnings_line; auto|]. exists [c]. rewrite warnings_line. split; auto. cbn. unfold left_empty. rewrite H3. destruct (d_pool c); reflexivity.
Qed.
Lemma compose_goes p X y : goes (compose_safely_v verbose p X y) (compose_safely X y) (rec (fun b => b)).
Proof.
  eapply goes_weaken; [apply compose_safely_goes; auto|]. intros e out [HO HE]. unfold rec. pose proof (compose_rec X y e) as HD.
  assert (HK : forall w, empty_warning w = false -> filter empty_warning (line L RD RC G verbose p 4 Optimizing e ++ [w]) = []).
  { intros w HW. rewrite filter_app, warnings_line. cbn. now rewrite HW. }
  destruct (compose_step X y e) as [[[]|x] e1] eqn:ED; cbn [fst snd] in *.
  + destruct HO as [HR ->]. rewrite HR in HE |- *. rewrite HE. destruct HD as (H1 & c & H2 & H3). split.
    * exists []. rewrite !app_nil_r, warnings_line. auto.
    * intros [HC1 HC2]. split; [now rewrite H1|]. rewrite H2. apply Forall_app. split; auto.
  + unfold ended in HO. destruct HD as (H1 & H2). destruct (python_exn x) eqn:EP.
    * destruct HO as (HR & w & HW & ->). rewrite HR in HE |- *. rewrite HE. split; [exists []; rewrite app_nil_r, (HK w (reports_no_empty _ _ HW)); auto|].
      intros HC. exists (line L RD RC G verbose p 4 Optimizing e), w, x. split; auto. split; auto. destruct H2 as [H2|(c & H2 & H3)].
      -- right. eapply same_calls_calm; [| |exact HC]; auto.
      -- left. right. exists c. split; auto. change (ccalls (set_status true true e1)) with (ccalls e1). rewrite H2. apply in_or_app. right. left. auto.
    * destruct HO as [HR ->]. rewrite HR in HE |- *. rewrite HE. split; [|auto]. exists []. rewrite app_nil_r, warnings_line. auto.
Qed.
Lemma check_calls p (e : est) : dcalls (snd (check_early_stopping p e)) = dcalls e /\ ccalls (snd (check_early_stopping p e)) = ccalls e.
Proof.
  unfold check_early_stopping. destruct (Z.ltb 0 (patience p)); [|auto]. unfold bind, get, lift, assign, ret.
  destruct (best e) as [el|]; [|auto]. destruct (of_option AttributeError el); [|auto]. destruct (nlt _ _); auto.
Qed.
Lemma loop_calls p X y : forall st, goes (main_loop_v verbose p X y st) (main_loop p X y st) (rec (fun b => b)).
Proof.
  induction st as [|i st IH]; intros e t.
  { exists []. rewrite app_nil_r. split; [reflexivity|]. split; [apply counted_refl; reflexivity|auto]. }
  rewrite loop_v_cons, loop_cons.
  destruct (discover_goes p X y (n_rules p) (set_step i e) t) as (o1 & E1 & Q1 & H1). rewrite E1.
  destruct (discover_safely X y (n_rules p) (set_step i e)) as [[[|]|x] e1]; cbn [fst snd] in *.
  { exists o1. split; [reflexivity|]. split; auto. }
  2: { exists o1. split; [reflexivity|]. split; auto. }
  destruct (compose_goes p X y e1 (t ++ o1)) as (o2 & E2 & Q2 & H2). rewrite E2.
  assert (Q12 : counted e (snd (compose_safely X y e1)) (o1 ++ o2)) by (eapply counted_trans; eauto).
  destruct (compose_safely X y e1) as [[[|]|x] e2]; cbn [fst snd] in *.
  { exists (o1 ++ o2). rewrite app_assoc. split; [reflexivity|]. split; auto. intros HC. apply warned_app. auto. }
  2: { exists (o1 ++ o2). rewrite app_assoc. split; [reflexivity|]. split; auto. }
  assert (Hbad : forall x, exists out, (Raise x, (e2, (t ++ o1) ++ o2)) = (fst ((Raise x : res bool), e2), (snd ((Raise x : res bool), e2), t ++ out)) /\ rec (fun b => b) e (Raise x) e2 out).
  { intros x. exists (o1 ++ o2). rewrite app_assoc. split; [reflexivity|]. split; auto. }
  unfold after_logs. destruct (the_logs e2) as [l|x]; [|apply Hbad]. destruct (literation _ _ _ _ _ _ _ _) as [l'|x]; [|apply Hbad]. clear Hbad.
  destruct (check_goes L RD RC G p (set_logs (Some l') e2) ((t ++ o1) ++ o2)) as (o3 & E3 & H3 & _). rewrite E3.
  destruct (check_calls p (set_logs (Some l') e2)) as [K1 K2].
  assert (Q3 : counted e (snd (check_early_stopping p (set_logs (Some l') e2))) ((o1 ++ o2) ++ o3)).
  { eapply counted_trans; [exact Q12|]. exists []. rewrite app_nil_r. split; auto. subst o3. destruct (fst (check_early_stopping p (set_logs (Some l') e2))) as [[|]|]; reflexivity. }
  destruct (check_early_stopping p (set_logs (Some l') e2)) as [[[|]|x] e3] eqn:EC; cbn [fst snd] in *.
  - exists ((o1 ++ o2) ++ o3). rewrite !app_assoc. split; [reflexivity|]. split; auto. intros HC. apply (same_calls_calm e2); auto.
  - destruct (IH e3 ((((t ++ o1) ++ o2) ++ o3))) as (o4 & E4 & Q4 & H4). rewrite E4. exists (((o1 ++ o2) ++ o3) ++ o4). rewrite !app_assoc. split; [reflexivity|].
    split; [rewrite <- !app_assoc in *; rewrite !app_assoc in *; eapply counted_trans; eauto|].
    intros HC. specialize (H4 (same_calls_calm _ _ K1 K2 (H2 (H1 HC)))). destruct (fst (main_loop p X y st e3)) as [[|]|]; auto. apply warned_app. auto.
  - exists ((o1 ++ o2) ++ o3). rewrite !app_assoc. split; [reflexivity|]. split; auto.
Qed.
Lemma first_calls p X y : goes (first_v L RD RC G verbose p X y) (first L RD RC G p X y) (rec (fun b => b)).
Proof.
  unfold first, first_v. destruct (Nat.ltb 0 (n_initial p)); [apply discover_goes|].
  eapply goes_weaken; [apply ret_goes|]. intros e out (_ & _ & ->). split; [apply counted_refl; reflexivity|auto].
Qed.
Lemma finish_calls X y (e : est) : dcalls (snd (finish false X y e)) = dcalls e /\ ccalls (snd (finish false X y e)) = ccalls e.
Proof.
  unfold finish, bind, get, assign, lift. destruct (best e) as [el|]; [|auto]. destruct (of_option AttributeError el) as [b|]; [|auto].
  unfold the_logs. cbn. destruct (logs e) as [l|]; [|auto]. cbn. destruct (lfinal G X y (pool e) (Learned b) l) as [l'|]; auto.
Qed.
Lemma warnings_bounds p (e : est) : filter empty_warning (bound_lines L RD RC G verbose empty p e) = [].
Proof. unfold bound_lines. destruct (Z.leb 1 verbose); [|reflexivity]. induction empty; cbn; auto. Qed.

Section S.
Variables (p : params) (os : Z) (X : matrix) (y : targets) (e e' : est) (r : res unit) (out : list output).
Hypothesis HR : ready D C G p X y.
Hypothesis HE : fit_v verbose empty p os false X y (e, []) = (r, (e', out)).
Lemma fit_calls : length (filter empty_warning out) = length (filter left_empty (dcalls e')) /\
  (r = Ok tt -> is_error e' = true -> warned out e').
Proof.
  destruct HR as (G1 & G2 & (d & G3) & (c & G4) & (l & G5)).
  pose proof (prepare_ok L D C G p os X y e d c l G1 G2 G3 G4 G5) as HP. rewrite prepare_split in HP. unfold bind in HP.
  rewrite fit_v_eq in HE. destruct (set_up p os X y e) as [[[]|x] e0]; [|discriminate HP].
  destruct (open_logs p e0) as [[[]|x] e1]; [|discriminate HP]. injection HP as ->.
  set (e1 := started L D C G p (root_seed os (random_state p)) e d c l) in *. set (t1 := [] ++ bound_lines L RD RC G verbose empty p e0) in *.
  assert (HT : filter empty_warning t1 = []) by apply warnings_bounds.
  assert (D0 : dcalls e1 = []) by reflexivity. assert (C0 : calm e1) by (split; constructor).
  assert (HX0 : is_error e1 = false) by reflexivity.
  destruct (first_calls p X y e1 t1) as (o1 & E1 & Q1 & H1). rewrite E1 in HE.
  pose proof (discover_safely_err L RD RC G X y (n_initial p) e1) as RE1.
  assert (RE1' : match first L RD RC G p X y e1 with (Ok b, e') => is_error e' = (b || is_error e1)%bool | _ => True end)
    by (unfold first; destruct (Nat.ltb 0 (n_initial p)); [auto|reflexivity]). clear RE1.
  assert (FIN : forall e2 o, counted e1 e2 o -> length (filter empty_warning (t1 ++ o)) = length (filter left_empty (dcalls e2))).
  { intros e2 o (cs & A1 & A2). rewrite filter_app, HT, A1, D0. exact A2. }
  destruct (first L RD RC G p X y e1) as [[[|]|x] e2]; cbn [fst snd] in *.
  { injection HE as <- <- <-. split; [auto|]. intros _ _. apply warned_app. auto. }
  2: { injection HE as <- <- <-. split; [auto|]. discriminate. }
  destruct (loop_calls p X y (seq 0 (n_iter p)) e2 (t1 ++ o1)) as (o2 & E2 & Q2 & H2). rewrite E2 in HE.
  pose proof (loop_err L RD RC G p X y (seq 0 (n_iter p)) e2) as RE2. pose proof (counted_trans _ _ _ _ _ Q1 Q2) as Q12.
  destruct (main_loop p X y (seq 0 (n_iter p)) e2) as [[[|]|x] e3]; cbn [fst snd] in *.
  { injection HE as <- <- <-. rewrite <- app_assoc. split; [auto|]. intros _ _. apply warned_app, warned_app. auto. }
  2: { injection HE as <- <- <-. rewrite <- app_assoc. split; [auto|]. discriminate. }
  unfold silently in HE. cbn [fst snd] in HE. destruct (finish_calls X y e3) as [K1 K2]. destruct (finish_keeps L RD RC G false X y e3) as [_ K3].
  destruct (finish false X y e3) as [r4 e4]. cbn [fst snd] in *. injection HE as <- <- <-. rewrite <- app_assoc. split.
  - rewrite K1. auto.
  - intros _ HX. cbn [orb] in RE1', RE2. congruence.
Qed.
Lemma warning_cause : r = Ok tt -> is_error e' = true -> (0 < n_rules p)%nat -> (n_initial p = 0%nat \/ (step e < n_iter p)%nat) ->
  starts_empty C -> Forall delivered (ccalls e') ->
  exists o w x, out = o ++ [w] /\ reports w x /\ raised_by e' x.
Proof.
  intros H1 H2 H3 H4 H5 H6. destruct fit_calls as [_ HW]. destruct (HW H1 H2) as (o & w & x & HO & HWX & [HB|[HC1 HC2]]); [eauto 6|].
  exfalso. destruct (run_out L RD RC G verbose empty p os false X y e e' r out HE) as [HF _]. rewrite H1 in HF.
  destruct (error_cause L D C G p os X y e HR e' HF H3 H4 H5 H6 H2) as [(c & HI & x0 & HX)|(c & HI & x0 & HX)].
  - rewrite Forall_forall in HC1. destruct (HC1 c HI). congruence.
  - rewrite Forall_forall in HC2. specialize (HC2 c HI). congruence.
Qed.
End S.
End R.
