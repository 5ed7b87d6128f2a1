(* What fit puts out: helper lemmas. *)
From Coq Require Import String Lia.
From Verif Require Import PyNum PyList PyMon PyRng L_Num L_List M_Matching M_Rule M_Mixing M_Fit S_Fit L_Fit L_FitProps M_Verbose S_Verbose.

Lemma says_which x : reports (if value_error x then FailedValueError x else FailedOther x) x.
Proof. destruct x; reflexivity. Qed.
Section V.
Variable L : learner.
Variables (D : discovery L) (C : composition L) (G : logger L).
Variables (verbose : Z) (empty : list string).
Notation est := (est D C G).
Notation VSt := (St (est * list output)).

(* mv is m with output, and the output satisfies R *)
Definition goes {A} (mv : VSt A) (m : St est A) (R : est -> res A -> est -> list output -> Prop) : Prop :=
  forall e t, exists out, mv (e, t) = (fst (m e), (snd (m e), t ++ out)) /\ R e (fst (m e)) (snd (m e)) out.

Lemma goes_weaken {A} (mv : VSt A) m (R R' : est -> res A -> est -> list output -> Prop) :
  goes mv m R -> (forall e out, R e (fst (m e)) (snd (m e)) out -> R' e (fst (m e)) (snd (m e)) out) -> goes mv m R'.
Proof. intros H HR e t. destruct (H e t) as (out & H1 & H2). exists out. auto. Qed.
Lemma silently_goes {A} (m : St est A) : goes (silently m) m (fun _ _ _ out => out = []).
Proof. intros e t. exists []. rewrite app_nil_r. unfold silently. cbn [fst snd]. destruct (m e). auto. Qed.
Lemma bind_goes {A B} (mv : VSt A) m (R : est -> res A -> est -> list output -> Prop) (kv : A -> VSt B) k (Rk : A -> est -> res B -> est -> list output -> Prop) :
  goes mv m R -> (forall a, goes (kv a) (k a) (Rk a)) ->
  goes (bind mv kv) (bind m k) (fun e r e' out =>
    (exists x, m e = (Raise x, e') /\ r = Raise x /\ R e (Raise x) e' out) \/
    (exists a e1 o1 o2, m e = (Ok a, e1) /\ k a e1 = (r, e') /\ out = o1 ++ o2 /\ R e (Ok a) e1 o1 /\ Rk a e1 r e' o2)).
Proof.
  intros H HK e t. destruct (H e t) as (o1 & H1 & H2). unfold bind. rewrite H1. destruct (m e) as [[a|x] e1] eqn:EM; cbn [fst snd] in *.
  - destruct (HK a e1 (t ++ o1)) as (o2 & H3 & H4). exists (o1 ++ o2). rewrite H3, app_assoc. split; auto. right. exists a, e1, o1, o2.
    destruct (k a e1); auto.
  - exists o1. split; auto. left. exists x. auto.
Qed.
Lemma say_goes (o : output) : goes (say o) (ret tt) (fun e r e' out => r = Ok tt /\ e' = e /\ out = [o]).
Proof. intros e t. exists [o]. auto. Qed.
Lemma ret_goes {A} (a : A) : goes (ret a) (ret a) (fun e r e' out => r = Ok a /\ e' = e /\ out = []).
Proof. intros e t. exists []. rewrite app_nil_r. auto. Qed.

(* the line for a message, if the level asks for it *)
Definition line (p : params) (pr : Z) (m : message) (e : est) : list output :=
  if Z.leb pr verbose then [Progress (S (step e)) (n_iter p) m] else [].
Lemma log_eq p pr m e t : log_to_stdout verbose p pr m (e, t) = (Ok tt, (e, t ++ line p pr m e)) :> res unit * (est * list output).
Proof. unfold log_to_stdout, line. destruct (Z.leb pr verbose); cbn [bind get say fst snd ret]; [reflexivity|now rewrite app_nil_r]. Qed.
Lemma bounds_eq p : forall keys (e : est) t, miter (fun key => log_to_stdout verbose p 1 (EmptyBounds key)) keys (e, t) =
  (Ok tt, (e, t ++ concat (map (fun key => line p 1 (EmptyBounds key) e) keys))).
Proof.
  induction keys as [|k keys IH]; intros e t; cbn [miter map concat]; [now rewrite app_nil_r|].
  unfold bind. rewrite log_eq, IH. now rewrite app_assoc.
Qed.

Lemma discover_step X y n e : step (snd (discover X y n e : res unit * est)) = step e.
Proof.
  unfold discover, bind, get, lift. destruct (best e); [|reflexivity]. destruct (the_disc e); [|reflexivity].
  destruct (of_option _ _); [|reflexivity]. destruct (drun _ _ _ _ _ _ _ _) as [r [k d']]. unfold assign. destruct r; reflexivity.
Qed.
Lemma compose_step_step X y e : step (snd (compose_step X y e : res unit * est)) = step e.
Proof.
  unfold compose_step, bind, get, lift. destruct (the_compo e); [|reflexivity]. destruct (of_option _ _); [|reflexivity].
  destruct (crun _ _ _ _ _ _ _) as [r c']. unfold assign. destruct r; reflexivity.
Qed.
Lemma discover_previous X y n e : previous (snd (discover X y n e : res unit * est)) = previous e.
Proof.
  unfold discover, bind, get, lift. destruct (best e); [|reflexivity]. destruct (the_disc e); [|reflexivity].
  destruct (of_option _ _); [|reflexivity]. destruct (drun _ _ _ _ _ _ _ _) as [r [k d']]. unfold assign. destruct r; reflexivity.
Qed.
Lemma compose_previous X y e : previous (snd (compose_step X y e : res unit * est)) = previous e.
Proof.
  unfold compose_step, bind, get, lift. destruct (the_compo e); [|reflexivity]. destruct (of_option _ _); [|reflexivity].
  destruct (crun _ _ _ _ _ _ _) as [r c']. unfold assign. destruct r; reflexivity.
Qed.

(* ----- the two guarded steps ----- *)
Definition empties (e : est) : list output := match pool e with [] => [EmptyPopulation] | _ => [] end.
Definition ended (p : params) (mes : list output) (ok : list output) (r : res bool) (m : res unit) (out : list output) : Prop :=
  match m with
  | Ok _ => r = Ok false /\ out = mes ++ ok
  | Raise x => if python_exn x then r = Ok true /\ exists w, reports w x /\ out = mes ++ [w] else r = Raise x /\ out = mes
  end.
Lemma discover_v_eq p X y n e t : discover_v verbose p X y n (e, t) =
  (fst (discover X y n e), (snd (discover X y n e), t ++ line p 4 (Generating n) e ++ match fst (discover X y n e) with Ok _ => empties (snd (discover X y n e)) | Raise _ => [] end))
  :> res unit * (est * list output).
Proof.
  unfold discover_v. unfold bind at 1. rewrite log_eq. unfold bind at 1, silently. cbn [fst snd].
  destruct (discover X y n e) as [[[]|x] e']; cbn [fst snd]; [|now rewrite app_nil_r].
  unfold bind, get, empties. cbn [fst]. destruct (pool e'); unfold say, ret; cbn [fst snd]; [rewrite <- app_assoc|rewrite app_nil_r]; reflexivity.
Qed.
Lemma compose_v_eq p X y e t : compose_v verbose p X y (e, t) =
  (fst (compose_step X y e), (snd (compose_step X y e), t ++ line p 4 Optimizing e)) :> res unit * (est * list output).
Proof. unfold compose_v. unfold bind at 1. rewrite log_eq. unfold silently. cbn [fst snd]. destruct (compose_step X y e). reflexivity. Qed.

Lemma discover_safely_goes p X y n : n <> 0%nat -> goes (discover_safely_v verbose p X y n) (discover_safely X y n)
  (fun e r e' out => ended p (line p 4 (Generating n) e) (empties e') r (fst (discover X y n e)) out /\
     e' = match r with Ok true => set_status true true (snd (discover X y n e)) | _ => snd (discover X y n e) end).
Proof.
  intros HN e t. unfold discover_safely_v, discover_safely. destruct (Nat.eqb_spec n 0); [easy|]. unfold catch_v, catch.
  rewrite discover_v_eq. destruct (discover X y n e) as [[[]|x] e'] eqn:E; cbn [fst snd].
  - eexists. split; [reflexivity|]. split; [split; reflexivity|reflexivity].
  - destruct (python_exn x) eqn:EP.
    + eexists. rewrite app_nil_r. unfold bind, say, silently, ret, assign. cbn [fst snd]. rewrite <- app_assoc. split; [reflexivity|].
      unfold ended. rewrite EP. split; [|reflexivity]. split; [reflexivity|]. eexists. split; [|reflexivity]. apply says_which.
    + eexists. rewrite app_nil_r. split; [reflexivity|]. unfold ended. rewrite EP. auto.
Qed.
Lemma no_rules_goes p X y : goes (discover_safely_v verbose p X y 0) (discover_safely X y 0)
  (fun e r e' out => r = Ok true /\ e' = set_status true true e /\ out = [FailedOther TypeError]).
Proof. intros e t. eexists. split; [reflexivity|]. auto. Qed.
Lemma compose_safely_goes p X y : goes (compose_safely_v verbose p X y) (compose_safely X y)
  (fun e r e' out => ended p (line p 4 Optimizing e) [] r (fst (compose_step X y e)) out /\
     e' = match r with Ok true => set_status true true (snd (compose_step X y e)) | _ => snd (compose_step X y e) end).
Proof.
  intros e t. unfold compose_safely_v, compose_safely, catch_v, catch. rewrite compose_v_eq.
  destruct (compose_step X y e) as [[[]|x] e'] eqn:E; cbn [fst snd].
  - eexists. split; [reflexivity|]. split; [|reflexivity]. split; [reflexivity|]. now rewrite app_nil_r.
  - destruct (python_exn x) eqn:EP.
    + eexists. unfold bind, say, silently, ret, assign. cbn [fst snd]. rewrite <- app_assoc. split; [reflexivity|].
      unfold ended. rewrite EP. split; [|reflexivity]. split; [reflexivity|]. eexists. split; [|reflexivity]. apply says_which.
    + eexists. split; [reflexivity|]. unfold ended. rewrite EP. auto.
Qed.
Lemma check_goes p : goes (check_early_stopping_v p) (check_early_stopping p)
  (fun e r e' out => out = match r with Ok true => [StoppedAfter (patience p); ElitistWas (previous e)] | _ => [] end /\
     previous e' = previous e /\ step e' = step e).
Proof.
  intros e t. unfold check_early_stopping_v, check_early_stopping. destruct (Z.ltb 0 (patience p)).
  2: { exists []. cbn. rewrite app_nil_r. auto. }
  unfold bind, get, lift, silently, assign, ret, say. cbn [fst snd].
  destruct (best e) as [el|x]; [|exists []; cbn; rewrite app_nil_r; auto].
  destruct (of_option AttributeError el) as [b|x]; [|exists []; cbn; rewrite app_nil_r; auto].
  cbn zeta. destruct (nlt _ _); cbn [fst snd].
  - exists []. rewrite app_nil_r. split; [reflexivity|]. split; [reflexivity|]. split; reflexivity.
  - destruct (Z.leb _ _); cbn [fst snd].
    + eexists. rewrite <- app_assoc. split; [reflexivity|]. split; [reflexivity|]. split; reflexivity.
    + exists []. rewrite app_nil_r. split; [reflexivity|]. split; [reflexivity|]. split; reflexivity.
Qed.

(* ----- the loop ----- *)
Definition talk (ls : list output) : list output := if Z.leb 4 verbose then ls else [].
(* what is put out without a failure *)
Definition clean_out (prev : num) (o : list output) : Prop :=
  Forall (fun w => failure w = false) o /\ (Z.leb 4 verbose = false -> Forall (fun w => is_progress w = false) o) /\
  (forall f, In (ElitistWas f) o -> f = prev) /\ Forall (fun w => about_bounds w = false) o.
Lemma clean_nil prev : clean_out prev [].
Proof. repeat split; auto. intros f []. Qed.
Lemma clean_app prev a b : clean_out prev a -> clean_out prev b -> clean_out prev (a ++ b).
Proof.
  intros (A1 & A2 & A3 & A4) (B1 & B2 & B3 & B4). repeat split.
  - apply Forall_app; auto.
  - intros H. apply Forall_app; auto.
  - intros f H. apply in_app_or in H. destruct H; auto.
  - apply Forall_app; auto.
Qed.
Lemma clean_line prev p n e : clean_out prev (line p 4 (Generating n) e) /\ clean_out prev (line p 4 Optimizing e).
Proof.
  unfold line, clean_out. destruct (Z.leb 4 verbose); repeat split; auto; try discriminate; try (intros f [H|[]]; discriminate H); intros f [].
Qed.
Lemma clean_empties prev e : clean_out prev (empties e).
Proof. unfold empties, clean_out. destruct (pool e); repeat split; auto; try (intros f [H|[]]; discriminate H). intros f []. Qed.
Lemma printed_empties e : filter printed (empties e) = [].
Proof. unfold empties. destruct (pool e); reflexivity. Qed.
Definition failed_out (prev : num) (out : list output) : Prop := exists o w x, out = o ++ [w] /\ reports w x /\ clean_out prev o.
Definition loop_out (p : params) (i m : nat) (e : est) (r : res bool) (e' : est) (out : list output) : Prop :=
  previous e' = previous e /\
  match r with
  | Ok true => failed_out (previous e) out
  | Raise _ => clean_out (previous e) out
  | Ok false => clean_out (previous e) out /\
      exists k stop, (k <= m)%nat /\ step e' = (match k with O => step e | S k' => i + k' end)%nat /\
        filter printed out = talk (concat (map (iteration_lines (n_iter p) (n_rules p)) (seq i k))) ++ stop /\
        (stop = [] /\ k = m \/ (0 < k)%nat /\ (0 < patience p)%Z /\ stop = [StoppedAfter (patience p); ElitistWas (previous e)])
  end.
Definition after_logs {S} (X : matrix) (y : targets) (e : est) (bad : exn -> res bool * S) (good : est -> res bool * S) : res bool * S :=
  match the_logs e with
  | Raise x => bad x
  | Ok l => match literation G X y (step e) (pool e) (population e) (best e) l with
            | Raise x => bad x
            | Ok l' => good (set_logs (Some l') e)
            end
  end.
Lemma loop_v_cons p X y i st e t : main_loop_v verbose p X y (i :: st) (e, t) =
  match discover_safely_v verbose p X y (n_rules p) (set_step i e, t) with
  | (Ok false, s1) =>
      match compose_safely_v verbose p X y s1 with
      | (Ok false, (e2, t2)) =>
          after_logs X y e2 (fun x => (Raise x, (e2, t2))) (fun e3 =>
            match check_early_stopping_v p (e3, t2) with
            | (Ok true, s) => (Ok false, s) | (Ok false, s) => main_loop_v verbose p X y st s | (Raise x, s) => (Raise x, s)
            end)
      | o => o
      end
  | o => o
  end.
Proof.
  cbn [main_loop_v]. unfold bind at 1, silently at 1, assign at 1. cbn [fst snd]. unfold bind at 1.
  destruct (discover_safely_v verbose p X y (n_rules p) (set_step i e, t)) as [[[|]|x] s1]; try reflexivity. unfold bind at 1.
  destruct (compose_safely_v verbose p X y s1) as [[[|]|x] [e2 t2]]; try reflexivity.
  unfold bind at 1, get. unfold bind at 1, lift at 1. cbn [fst]. unfold after_logs. destruct (the_logs e2) as [l|x]; try reflexivity.
  unfold bind at 1, lift at 1. destruct (literation _ _ _ _ _ _ _ _) as [l'|x]; try reflexivity. unfold bind at 1, silently at 1, assign at 1. cbn [fst snd].
  unfold bind at 1. destruct (check_early_stopping_v p (set_logs (Some l') e2, t2)) as [[[|]|x] s3]; reflexivity.
Qed.
Lemma loop_cons p X y i st (e : est) : main_loop p X y (i :: st) e =
  match discover_safely X y (n_rules p) (set_step i e) with
  | (Ok false, e1) =>
      match compose_safely X y e1 with
      | (Ok false, e2) =>
          after_logs X y e2 (fun x => (Raise x, e2)) (fun e3 =>
            match check_early_stopping p e3 with
            | (Ok true, s) => (Ok false, s) | (Ok false, s) => main_loop p X y st s | (Raise x, s) => (Raise x, s)
            end)
      | o => o
      end
  | o => o
  end.
Proof.
  cbn [main_loop]. unfold bind at 1, assign at 1. unfold bind at 1.
  destruct (discover_safely X y (n_rules p) (set_step i e)) as [[[|]|x] s1]; try reflexivity. unfold bind at 1.
  destruct (compose_safely X y s1) as [[[|]|x] e2]; try reflexivity.
  unfold bind at 1, get. unfold bind at 1, lift at 1. unfold after_logs. destruct (the_logs e2) as [l|x]; try reflexivity.
  unfold bind at 1, lift at 1. destruct (literation _ _ _ _ _ _ _ _) as [l'|x]; try reflexivity. unfold bind at 1, assign at 1.
  unfold bind at 1. destruct (check_early_stopping p (set_logs (Some l') e2)) as [[[|]|x] s3]; reflexivity.
Qed.

Lemma ended_failed p prev mes ok r m out : clean_out prev mes -> ended p mes ok r m out -> r = Ok true -> failed_out prev out.
Proof.
  unfold ended. intros HM H ->. destruct m as [[]|x]; [now destruct H|]. destruct (python_exn x); [|now destruct H].
  destruct H as (_ & w & H1 & ->). exists mes, w, x. auto.
Qed.
Lemma ended_ok p mes ok r m out : ended p mes ok r m out -> r = Ok false -> out = mes ++ ok.
Proof. unfold ended. intros H ->. destruct m as [[]|x]; [now destruct H|]. destruct (python_exn x); now destruct H. Qed.
Lemma ended_raise p mes ok r m out x : ended p mes ok r m out -> r = Raise x -> out = mes.
Proof. unfold ended. intros H ->. destruct m as [[]|x']; [now destruct H|]. destruct (python_exn x'); now destruct H. Qed.
Lemma failed_app prev a b : clean_out prev a -> failed_out prev b -> failed_out prev (a ++ b).
Proof. intros HA (o & w & x & -> & HW & HO). exists (a ++ o), w, x. rewrite app_assoc. split; auto. split; auto. apply clean_app; auto. Qed.
Lemma printed_line p m e : filter printed (line p 4 m e) = talk [Progress (S (step e)) (n_iter p) m].
Proof. unfold line, talk. destruct (Z.leb 4 verbose); reflexivity. Qed.
Lemma talk_app a b : talk (a ++ b) = talk a ++ talk b.
Proof. unfold talk. destruct (Z.leb 4 verbose); reflexivity. Qed.

(* one safe discovery: what it puts out and what it leaves *)
Definition disc_out_spec (p : params) (n : nat) (e : est) (r : res bool) (e' : est) (out : list output) : Prop :=
  previous e' = previous e /\ step e' = step e /\
  match r with
  | Ok true => failed_out (previous e) out
  | Ok false => clean_out (previous e) out /\ filter printed out = talk [Progress (S (step e)) (n_iter p) (Generating n)]
  | Raise _ => clean_out (previous e) out
  end.
Lemma discover_spec p X y n : goes (discover_safely_v verbose p X y n) (discover_safely X y n) (disc_out_spec p n).
Proof.
  destruct (Nat.eq_dec n 0) as [->|HN].
  - eapply goes_weaken; [apply no_rules_goes|]. intros e out (HR & HE & ->). unfold disc_out_spec. rewrite HR, HE. split; [reflexivity|]. split; [reflexivity|].
    exists [], (FailedOther TypeError), TypeError. split; auto. split; [reflexivity|apply clean_nil].
  - eapply goes_weaken; [apply discover_safely_goes; auto|]. intros e out [HO HE]. unfold disc_out_spec.
    pose proof (discover_previous X y n e) as HP. pose proof (discover_step X y n e) as HS. pose proof (clean_line (previous e) p n e) as [HL _].
    destruct (fst (discover_safely X y n e)) as [[|]|x] eqn:ER.
    + rewrite HE. cbn. split; auto. split; auto. eapply ended_failed; eauto.
    + rewrite HE. split; auto. split; auto. pose proof (ended_ok _ _ _ _ _ _ HO eq_refl) as ->.
      split; [apply clean_app; auto; apply clean_empties|]. rewrite filter_app, printed_empties, app_nil_r. apply printed_line.
    + rewrite HE. split; auto. split; auto. pose proof (ended_raise _ _ _ _ _ _ _ HO eq_refl) as ->. auto.
Qed.
Definition comp_out_spec (p : params) (e : est) (r : res bool) (e' : est) (out : list output) : Prop :=
  previous e' = previous e /\ step e' = step e /\
  match r with
  | Ok true => failed_out (previous e) out
  | Ok false => clean_out (previous e) out /\ filter printed out = talk [Progress (S (step e)) (n_iter p) Optimizing]
  | Raise _ => clean_out (previous e) out
  end.
Lemma compose_spec p X y : goes (compose_safely_v verbose p X y) (compose_safely X y) (comp_out_spec p).
Proof.
  eapply goes_weaken; [apply compose_safely_goes; auto|]. intros e out [HO HE]. unfold comp_out_spec.
  pose proof (compose_previous X y e) as HP. pose proof (compose_step_step X y e) as HS. pose proof (clean_line (previous e) p 0 e) as [_ HL].
  destruct (fst (compose_safely X y e)) as [[|]|x] eqn:ER.
  + rewrite HE. cbn. split; auto. split; auto. eapply ended_failed; eauto.
  + rewrite HE. split; auto. split; auto. pose proof (ended_ok _ _ _ _ _ _ HO eq_refl) as ->. rewrite app_nil_r. split; auto. apply printed_line.
  + rewrite HE. split; auto. split; auto. pose proof (ended_raise _ _ _ _ _ _ _ HO eq_refl) as ->. auto.
Qed.

Lemma loop_goes p X y : forall m i, goes (main_loop_v verbose p X y (seq i m)) (main_loop p X y (seq i m)) (loop_out p i m).
Proof.
  induction m as [|m IH]; intros i e t.
  { exists []. cbn. rewrite app_nil_r. split; [reflexivity|]. split; [reflexivity|]. split; [apply clean_nil|].
    exists 0%nat, []. split; [lia|]. split; [reflexivity|]. split; [unfold talk; destruct (Z.leb 4 verbose); reflexivity|]. left. auto. }
  cbn [seq]. rewrite loop_v_cons, loop_cons.
  destruct (discover_spec p X y (n_rules p) (set_step i e) t) as (o1 & E1 & P1 & S1 & H1). rewrite E1. cbn [previous step set_step] in P1, S1, H1.
  destruct (discover_safely X y (n_rules p) (set_step i e)) as [[[|]|x] e1]; cbn [fst snd] in *.
  { exists o1. split; [reflexivity|]. split; auto. }
  2: { exists o1. split; [reflexivity|]. split; auto. }
  destruct H1 as [C1 F1]. destruct (compose_spec p X y e1 (t ++ o1)) as (o2 & E2 & P2 & S2 & H2). rewrite E2. rewrite P1 in H2.
  destruct (compose_safely X y e1) as [[[|]|x] e2]; cbn [fst snd] in *.
  { exists (o1 ++ o2). rewrite app_assoc. split; [reflexivity|]. split; [congruence|]. apply failed_app; auto. }
  2: { exists (o1 ++ o2). rewrite app_assoc. split; [reflexivity|]. split; [congruence|]. apply clean_app; auto. }
  destruct H2 as [C2 F2]. assert (C12 : clean_out (previous e) (o1 ++ o2)) by (apply clean_app; auto).
  assert (Hbad : forall x, exists out, (Raise x, (e2, (t ++ o1) ++ o2)) = (fst ((Raise x : res bool), e2), (snd ((Raise x : res bool), e2), t ++ out)) /\ loop_out p i (S m) e (Raise x) e2 out).
  { intros x. exists (o1 ++ o2). rewrite app_assoc. split; [reflexivity|]. split; [congruence|]. auto. }
  unfold after_logs. destruct (the_logs e2) as [l|x]; [|apply Hbad]. destruct (literation _ _ _ _ _ _ _ _) as [l'|x]; [|apply Hbad]. clear Hbad.
  destruct (check_goes p (set_logs (Some l') e2) ((t ++ o1) ++ o2)) as (o3 & E3 & H3 & P3 & S3). rewrite E3.
  cbn [previous step set_logs] in H3, P3, S3.
  destruct (check_early_stopping p (set_logs (Some l') e2)) as [[[|]|x] e3] eqn:EC; cbn [fst snd] in *.
  - exists ((o1 ++ o2) ++ o3). rewrite !app_assoc. split; [reflexivity|]. split; [congruence|].
    assert (HP : previous e2 = previous e) by congruence. rewrite HP in H3. split.
    + apply clean_app; auto. subst o3. repeat split; auto; try (intros f [H|[H|[]]]; congruence).
    + exists 1%nat, [StoppedAfter (patience p); ElitistWas (previous e)]. split; [lia|]. split; [rewrite S3; lia|]. split.
      * rewrite !filter_app, F1, F2, H3. cbn [seq map concat]. rewrite app_nil_r. unfold iteration_lines. rewrite S1. rewrite <- talk_app. reflexivity.
      * right. split; [lia|]. split; auto. unfold check_early_stopping in EC. destruct (Z.ltb_spec 0 (patience p)); [auto|discriminate EC].
  - destruct (IH (S i) e3 ((((t ++ o1) ++ o2) ++ o3))) as (o4 & E4 & P4 & H4). rewrite E4. subst o3. cbn [app].
    rewrite app_nil_r in *. exists ((o1 ++ o2) ++ o4). rewrite !app_assoc. split; [reflexivity|]. split; [congruence|].
    assert (HP : previous e3 = previous e) by congruence. rewrite HP in H4.
    destruct (fst (main_loop p X y (seq (S i) m) e3)) as [[|]|x].
    + apply failed_app; auto.
    + destruct H4 as (C4 & k & stop & HK & HS & HF & HD). split; [apply clean_app; auto|]. exists (S k), stop. split; [lia|].
      split; [|split].
      * rewrite HS. destruct k; [rewrite S3; lia|lia].
      * rewrite !filter_app, F1, F2, HF. cbn [seq map concat]. unfold iteration_lines at 2. rewrite S1. unfold talk. destruct (Z.leb 4 verbose); reflexivity.
      * destruct HD as [[-> ->]|(HD & HD2)]; [left; auto|right; split; [lia|auto]].
    + apply clean_app; auto.
  - exists ((o1 ++ o2) ++ o3). rewrite !app_assoc. split; [reflexivity|]. split; [congruence|]. subst o3. rewrite app_nil_r. auto.
Qed.
End V.
