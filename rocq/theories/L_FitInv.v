(* Invariants of the components during one call of fit that ends without an error. *)
From Coq Require Import Lia.
From Verif Require Import PyNum PyList PyMon PyRng L_Num L_List M_Matching M_Rule M_Mixing M_Fit S_Fit L_Fit L_FitProps.

Section Inv.
Variable L : learner.
Variables (D : discovery L) (C : composition L) (G : logger L) (p : params) (X : matrix) (y : targets).
(* before a discovery, and between it and the composition *)
Variables P1 P2 : list (rule L) -> dst D -> cst C -> Prop.
Let M := (n_rules p * n_iter p + n_initial p)%nat.
Hypothesis H0 : forall d c, dnew D X = Ok d -> cnew C = Ok c -> P1 [] d c.
Hypothesis HD : forall pool d c el n s new k d', P1 pool d c -> (0 < n)%nat -> cbest C c = Ok el ->
  drun D X y pool (option_map (with_pool pool) el) n s d = (Ok new, (k, d')) -> P2 (pool ++ new) d' c.
Hypothesis HC : forall pool d c s c', P2 pool d c -> crun C X y M pool s c = (Ok tt, c') -> P1 pool d c'.
Hypothesis HS : forall pool d c, P2 pool d c -> cnew C = Ok c -> P1 pool d c.
Notation est := (est D C G).
Definition holds (P : list (rule L) -> dst D -> cst C -> Prop) (e : est) : Prop :=
  max_len e = M /\ exists d c, disc e = Some d /\ compo e = Some c /\ P (pool e) d c.

Lemma discover_holds n e e' : holds P1 e -> discover_safely X y n e = (Ok false, e') -> holds P2 e' /\ compo e' = compo e.
Proof.
  intros (HM & d & c & Hd & Hc & HP) H. unfold discover_safely, catch in H. destruct (Nat.eqb n 0) eqn:EN; [cbn in H; discriminate|].
  assert (Hn : (0 < n)%nat) by (apply Nat.eqb_neq in EN; lia).
  destruct (discover X y n e) as [[u|x] e1] eqn:ED; [|destruct (python_exn x); discriminate]. injection H as <-.
  unfold discover, bind, lift, get, assign, the_disc, best, the_compo in ED. rewrite Hc, Hd in ED. cbn [of_option rbind] in ED.
  destruct (cbest C c) as [el|x] eqn:EB; [|discriminate]. cbn [rbind] in ED.
  destruct (nth_error (dseeds e) (step e)) as [s|]; [|discriminate]. cbn [of_option] in ED.
  destruct (drun D X y (pool e) (option_map (with_pool (pool e)) el) n s d) as [r [k d']] eqn:ER.
  destruct r as [new|x]; [|discriminate]. injection ED as <- <-. split; [|cbn; symmetry; exact Hc].
  split; [exact HM|]. exists d', c. cbn. split; [reflexivity|]. split; [reflexivity|]. exact (HD _ _ _ _ _ _ _ _ _ HP Hn EB ER).
Qed.
Lemma compose_holds e e' : holds P2 e -> compose_safely X y e = (Ok false, e') -> holds P1 e'.
Proof.
  intros (HM & d & c & Hd & Hc & HP) H. unfold compose_safely, catch in H.
  destruct (compose_step X y e) as [[u|x] e1] eqn:ED; [|destruct (python_exn x); discriminate]. injection H as <-.
  unfold compose_step, bind, lift, get, assign, the_compo in ED. rewrite Hc in ED. cbn [of_option] in ED.
  destruct (nth_error (cseeds e) (step e)) as [s|]; [|discriminate]. cbn [of_option] in ED. rewrite HM in ED.
  destruct (crun C X y M (pool e) s c) as [r c'] eqn:ER. destruct r as [[]|x]; [|discriminate]. injection ED as _ <-.
  split; [exact HM|]. exists d, c'. cbn. split; [exact Hd|]. split; [reflexivity|]. exact (HC _ _ _ _ _ HP ER).
Qed.
Lemma check_holds P e b e' : holds P e -> check_early_stopping p e = (Ok b, e') -> holds P e'.
Proof.
  intros H E. unfold check_early_stopping in E. destruct (Z.ltb 0 (patience p)); [|injection E as _ <-; exact H].
  unfold bind, lift, get, assign in E. destruct (best e) as [el|x]; [|discriminate]. destruct (of_option AttributeError el) as [b0|x]; [|discriminate].
  destruct (nlt _ _); injection E as _ <-; exact H.
Qed.
Lemma loop_holds : forall steps e e', holds P1 e -> main_loop p X y steps e = (Ok false, e') -> holds P1 e'.
Proof.
  induction steps as [|i steps IH]; intros e e' H E; cbn [main_loop] in E; [injection E as <-; exact H|].
  unfold bind at 1 in E. unfold assign at 1 in E. assert (H1 : holds P1 (set_step i e)) by exact H. revert H1 E. generalize (set_step i e). clear e H. intros e H E.
  unfold bind at 1 in E. destruct (discover_safely X y (n_rules p) e) as [[[|]|x] e1] eqn:E1; try discriminate.
  apply discover_holds in E1 as [H1 _]; [|exact H]. unfold bind at 1 in E. destruct (compose_safely X y e1) as [[[|]|x] e2] eqn:E2; try discriminate.
  apply compose_holds in E2; [|exact H1]. unfold bind at 1, get in E. unfold bind at 1, lift at 1 in E.
  destruct (the_logs e2) as [l|x]; [|discriminate]. unfold bind at 1, lift at 1 in E. destruct (literation G X y (step e2) (pool e2) (population e2) (best e2) l) as [l'|x]; [|discriminate].
  unfold bind at 1, assign at 1 in E. assert (H3 : holds P1 (set_logs (Some l') e2)) by exact E2. revert H3 E. generalize (set_logs (Some l') e2). intros e3 H3 E.
  unfold bind at 1 in E. destruct (check_early_stopping p e3) as [[b|x] e4] eqn:E4; [|discriminate]. apply (check_holds P1) in E4; [|exact H3].
  destruct b; [injection E as <-; exact E4|]. exact (IH _ _ E4 E).
Qed.
Lemma prepare_holds os e e' : prepare p os X y e = (Ok tt, e') -> holds P1 e' /\ exists c, compo e' = Some c /\ cnew C = Ok c.
Proof.
  intros H. unfold prepare in H. do 4 (unfold bind at 1 in H; unfold assign at 1 in H). unfold bind at 1, lift at 1 in H.
  destruct (check_X_y X y) as [?|x]; [|discriminate]. unfold bind at 1, lift at 1 in H. destruct (check_random_state (random_state p)) as [?|x]; [|discriminate].
  unfold bind at 1, lift at 1 in H. destruct (seed_sequence os (random_state p)) as [s|x]; [|discriminate]. cbv zeta in H.
  do 2 (unfold bind at 1 in H; unfold assign at 1 in H). unfold bind at 1, lift at 1 in H. destruct (dnew D X) as [d|x] eqn:ED; [|discriminate].
  unfold bind at 1, lift at 1 in H. destruct (cnew C) as [c|x] eqn:EC; [|discriminate]. do 2 (unfold bind at 1 in H; unfold assign at 1 in H).
  unfold bind at 1, lift at 1 in H. destruct (linit G) as [l|x]; [|discriminate]. unfold assign in H. injection H as <-.
  split; [|exists c; split; reflexivity]. split; [reflexivity|]. exists d, c. split; [reflexivity|]. split; [reflexivity|]. exact (H0 d c eq_refl eq_refl).
Qed.
Lemma fit_holds os (e e' : est) : fit p os false X y e = (Ok tt, e') -> is_error e' = false ->
  exists d c s, disc e' = Some d /\ compo e' = Some c /\ P1 (pool e') d c /\ cbest C c = Ok (Some s) /\
    elitist e' = Some (Learned (with_pool (pool e') s)).
Proof.
  intros H HE. unfold fit in H. unfold bind at 1 in H. pose proof (prepare_err L D C G p os X y e) as HPE.
  destruct (prepare p os X y e) as [[[]|x] e1] eqn:EP; [|discriminate]. apply prepare_holds in EP as (HP & c0 & Hc0 & HN0).
  assert (HA : forall e2, holds P1 e2 -> is_error e2 = false ->
    bind (main_loop p X y (seq 0 (n_iter p))) (fun failed => if failed then ret tt else finish false X y) e2 = (Ok tt, e') ->
    exists d c s, disc e' = Some d /\ compo e' = Some c /\ P1 (pool e') d c /\ cbest C c = Ok (Some s) /\ elitist e' = Some (Learned (with_pool (pool e') s))).
  { intros e2 H2 HE2 E. unfold bind at 1 in E. pose proof (loop_err L D C G p X y (seq 0 (n_iter p)) e2) as HL.
    destruct (main_loop p X y (seq 0 (n_iter p)) e2) as [[[|]|x] e3] eqn:EL; [|clear HL|discriminate].
    - injection E as <-. rewrite HL in HE. discriminate.
    - apply loop_holds in EL; [|exact H2]. destruct EL as (HM & d & c & Hd & Hc & HPP). unfold finish, bind, lift, get, assign, best, the_compo, the_logs in E.
      rewrite Hc in E. cbn [of_option rbind] in E. destruct (cbest C c) as [[s|]|x] eqn:EB; try discriminate. cbn in E.
      destruct (logs e3) as [l|] eqn:EG; [|discriminate]. cbn in E. destruct (lfinal G X y (pool e3) _ l) as [l'|x]; [|discriminate]. injection E as <-.
      exists d, c, s. cbn. auto. }
  unfold bind at 1 in H. destruct (Nat.ltb 0 (n_initial p)) eqn:EI.
  - pose proof (discover_safely_err L D C G X y (n_initial p) e1) as HDE.
    destruct (discover_safely X y (n_initial p) e1) as [[[|]|x] e2] eqn:ED; [|clear EI|discriminate].
    + injection H as <-. rewrite HDE in HE. discriminate.
    + apply discover_holds in ED as [H2 Hc2]; [|exact HP]. apply (HA e2); [|rewrite HDE, HPE; reflexivity|exact H].
      destruct H2 as (HM & d & c & Hd & Hc & HP2). split; [exact HM|]. exists d, c. split; auto. split; auto.
      apply HS; [exact HP2|]. rewrite Hc2, Hc0 in Hc. injection Hc as <-. exact HN0.
  - apply (HA e1); [exact HP|exact HPE|exact H].
Qed.
End Inv.

(* Every call a component receives, however fit ends. *)
Section Calls.
Variable L : learner.
Variables (D0 : discovery L) (C0 : composition L) (G : logger L) (p : params) (X : matrix) (y : targets).
Notation D := (recorded_d D0). Notation C := (recorded_c C0).
Variables P1 P2 : list (rule L) -> dst D0 -> cst C0 -> Prop.
Variables (RD : dcall L -> Prop) (RC : ccall L -> Prop).
Let M := (n_rules p * n_iter p + n_initial p)%nat.
Hypothesis H0 : forall d c, dnew D0 X = Ok d -> cnew C0 = Ok c -> P1 [] d c.
Hypothesis HD : forall pool d c el n s r k d', P1 pool d c -> (0 < n)%nat -> cbest C0 c = Ok el ->
  drun D0 X y pool (option_map (with_pool pool) el) n s d = (r, (k, d')) ->
  RD (mkDcall pool (option_map (with_pool pool) el) n s r) /\ forall new, r = Ok new -> P2 (pool ++ new) d' c.
Hypothesis HC : forall pool d c s r c', P2 pool d c -> crun C0 X y M pool s c = (r, c') ->
  RC (mkCcall pool M s r (cbest C0 c') (cpopulation C0 c')) /\ (r = Ok tt -> P1 pool d c').
Hypothesis HS : forall pool d c, P2 pool d c -> cnew C0 = Ok c -> P1 pool d c.
Notation est := (est D C G).
Definition called (e : est) : Prop := Forall RD (dcalls e) /\ Forall RC (ccalls e).
Definition holds' (P : list (rule L) -> dst D0 -> cst C0 -> Prop) (e : est) : Prop :=
  max_len e = M /\ called e /\ exists d c, disc e = Some d /\ compo e = Some c /\ P (pool e) (fst d) (fst c).

Lemma discover_called n e : holds' P1 e ->
  match discover_safely X y n e with
  | (Ok false, e') => holds' P2 e' /\ (forall c, compo e = Some (c, []) -> compo e' = Some (c, []))
  | (_, e') => called e'
  end.
Proof.
  intros (HM & HK & d & c & Hd & Hc & HP). unfold discover_safely, catch. destruct (Nat.eqb n 0) eqn:EN; [cbn; exact HK|].
  assert (Hn : (0 < n)%nat) by (apply Nat.eqb_neq in EN; lia).
  unfold discover, bind, lift, get, assign, the_disc, best, the_compo. rewrite Hc, Hd. cbn [of_option rbind].
  cbn [cbest recorded_c]. destruct (cbest C0 (fst c)) as [el|x] eqn:EB; cbn [rbind]; [|destruct (python_exn x); exact HK].
  destruct (nth_error (dseeds e) (step e)) as [s|]; [|exact HK]. cbn [of_option].
  cbn [drun recorded_d]. destruct (drun D0 X y (pool e) (option_map (with_pool (pool e)) el) n s (fst d)) as [r [k d']] eqn:ER.
  destruct (HD _ _ _ _ _ _ _ _ _ HP Hn EB ER) as [HR1 HR2].
  assert (HK' : Forall RD (snd d ++ [mkDcall (pool e) (option_map (with_pool (pool e)) el) n s r]) /\ Forall RC (snd c)).
  { unfold called, dcalls, ccalls in HK. rewrite Hd, Hc in HK. destruct HK as [K1 K2]. split; auto. apply Forall_app. auto. }
  destruct r as [new|x].
  - split.
    + split; [exact HM|]. split; [unfold called, dcalls, ccalls; cbn; exact HK'|]. eexists _, _. cbn. split; [reflexivity|]. split; [reflexivity|].
      cbn. apply HR2. reflexivity.
    + cbn. auto.
  - destruct (python_exn x); unfold called, dcalls, ccalls; cbn; exact HK'.
Qed.
Lemma compose_called e : holds' P2 e ->
  match compose_safely X y e with (Ok false, e') => holds' P1 e' | (_, e') => called e' end.
Proof.
  intros (HM & HK & d & c & Hd & Hc & HP). unfold compose_safely, catch, compose_step, bind, lift, get, assign, the_compo. rewrite Hc. cbn [of_option].
  destruct (nth_error (cseeds e) (step e)) as [s|]; [|exact HK]. cbn [of_option]. rewrite HM. cbn [crun recorded_c].
  destruct (crun C0 X y M (pool e) s (fst c)) as [r c'] eqn:ER. destruct (HC _ _ _ _ _ _ HP ER) as [HR1 HR2].
  assert (HK' : Forall RD (snd d) /\ Forall RC (snd c ++ [mkCcall (pool e) M s r (cbest C0 c') (cpopulation C0 c')])).
  { unfold called, dcalls, ccalls in HK. rewrite Hd, Hc in HK. destruct HK as [K1 K2]. split; auto. apply Forall_app. auto. }
  destruct r as [[]|x].
  - split; [exact HM|]. split; [unfold called, dcalls, ccalls; cbn; rewrite Hd; exact HK'|]. eexists _, _. cbn. split; [exact Hd|]. split; [reflexivity|].
    cbn. apply HR2. reflexivity.
  - destruct (python_exn x); unfold called, dcalls, ccalls; cbn; rewrite Hd; exact HK'.
Qed.
Lemma holds'_called P e : holds' P e -> called e. Proof. intros (_ & H & _). exact H. Qed.
Lemma check_called P e : holds' P e -> match check_early_stopping p e with (Ok b, e') => holds' P e' | (_, e') => called e' end.
Proof.
  intros H. unfold check_early_stopping. destruct (Z.ltb 0 (patience p)); [|exact H].
  unfold bind, lift, get, assign. destruct (best e) as [el|x]; [|exact (holds'_called _ _ H)]. destruct (of_option AttributeError el) as [b0|x]; [|exact (holds'_called _ _ H)].
  destruct (nlt _ _); exact H.
Qed.
Lemma loop_called : forall steps e, holds' P1 e -> match main_loop p X y steps e with (Ok false, e') => holds' P1 e' | (_, e') => called e' end.
Proof.
  induction steps as [|i steps IH]; intros e H; cbn [main_loop]; [exact H|].
  unfold bind at 1. unfold assign at 1. assert (H1 : holds' P1 (set_step i e)) by exact H. revert H1. generalize (set_step i e). clear e H. intros e H.
  unfold bind at 1. pose proof (discover_called (n_rules p) e H) as H1. destruct (discover_safely X y (n_rules p) e) as [[[|]|x] e1]; try exact H1.
  destruct H1 as [H1 _]. unfold bind at 1. pose proof (compose_called e1 H1) as H2. destruct (compose_safely X y e1) as [[[|]|x] e2]; try exact H2.
  unfold bind at 1, get. unfold bind at 1, lift at 1.
  destruct (the_logs e2) as [l|x]; [|exact (holds'_called _ _ H2)]. unfold bind at 1, lift at 1. destruct (literation G X y (step e2) (pool e2) (population e2) (best e2) l) as [l'|x]; [|exact (holds'_called _ _ H2)].
  unfold bind at 1, assign at 1. assert (H3 : holds' P1 (set_logs (Some l') e2)) by exact H2. revert H3. generalize (set_logs (Some l') e2). intros e3 H3.
  unfold bind at 1. pose proof (check_called P1 e3 H3) as H4. destruct (check_early_stopping p e3) as [[b|x] e4]; [|exact H4].
  destruct b; [exact H4|]. exact (IH _ H4).
Qed.
Lemma fit_called os (e : est) d c l : good_data X y -> seedable (random_state p) -> dnew D0 X = Ok d -> cnew C0 = Ok c -> linit G = Ok l ->
  called (snd (fit p os false X y e)).
Proof.
  intros HG HSd Hd Hc Hl. unfold fit. unfold bind at 1. rewrite (prepare_ok L D0 C0 G p os X y e d c l HG HSd Hd Hc Hl).
  set (e0 := started L D0 C0 G p (root_seed os (random_state p)) e d c l).
  assert (HP : holds' P1 e0).
  { split; [cbn; unfold M; reflexivity|]. split; [split; constructor|]. exists (d, []), (c, []). split; [reflexivity|]. split; [reflexivity|]. cbn. auto. }
  assert (Hc0 : compo e0 = Some (c, [])) by reflexivity. clearbody e0.
  assert (HA : forall e2, holds' P1 e2 -> called (snd (bind (main_loop p X y (seq 0 (n_iter p))) (fun failed => if failed then ret tt else finish false X y) e2))).
  { intros e2 H2. unfold bind at 1. pose proof (loop_called (seq 0 (n_iter p)) e2 H2) as HL.
    destruct (main_loop p X y (seq 0 (n_iter p)) e2) as [[[|]|x] e3]; try exact HL. apply holds'_called in HL.
    unfold finish, bind, lift, get, assign, the_logs. destruct (best e3) as [[b|]|x]; try exact HL. cbn. destruct (logs e3) as [l3|]; [|exact HL]. cbn.
    destruct (lfinal G X y (pool e3) _ l3); exact HL. }
  unfold bind at 1. destruct (Nat.ltb 0 (n_initial p)).
  - pose proof (discover_called (n_initial p) e0 HP) as H1. destruct (discover_safely X y (n_initial p) e0) as [[[|]|x] e1]; try exact H1.
    destruct H1 as [(HM & HK & d1 & c1 & Hd1 & Hc1 & HP1) Hc2]. apply HA. split; auto. split; auto. exists d1, c1. split; auto. split; auto.
    apply HS; auto. rewrite (Hc2 _ Hc0) in Hc1. injection Hc1 as <-. exact Hc.
  - apply HA. exact HP.
Qed.
End Calls.
