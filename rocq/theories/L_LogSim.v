(* Two estimators that differ in the logger only. *)
From Coq Require Import String Lia.
From Verif Require Import PyNum PyList PyMon PyRng PyStat L_Num L_List M_Matching M_Rule M_Mixing M_Fit S_Fit L_Fit M_Logging S_Logging.

Section Sim.
Variable L : learner.
Variables (D : discovery L) (C : composition L) (G H : logger L).
(* H shows part of what G keeps *)
Variable pr : lst G -> lst H.
Hypothesis pr_init : forall l, linit G = Ok l -> linit H = Ok (pr l).
Hypothesis pr_iter : forall X y i p s b l l', literation G X y i p s b l = Ok l' -> literation H X y i p s b (pr l) = Ok (pr l').
Hypothesis pr_final : forall X y p m l l', lfinal G X y p m l = Ok l' -> lfinal H X y p m (pr l) = Ok (pr l').
Notation eG := (est D C G). Notation eH := (est D C H).

Definition shown (e : eG) (f : eH) : Prop := same_but_logs e f /\ logs f = option_map pr (logs e).
(* the same outcome on both sides, or an exception of the logger *)
Definition agree {A} (R : eG -> eH -> Prop) (a : res A * eG) (b : res A * eH) : Prop :=
  (fst a = fst b /\ R (snd a) (snd b)) \/ exists x, fst a = Raise x /\ logger_raises G x.
Definition sims {A} (R : eG -> eH -> Prop) (m : St eG A) (m' : St eH A) : Prop := forall e f, R e f -> agree R (m e) (m' f).

Lemma sims_bind {A B} (R : eG -> eH -> Prop) (m : St eG A) (m' : St eH A) (k : A -> St eG B) (k' : A -> St eH B) :
  sims R m m' -> (forall a, sims R (k a) (k' a)) -> sims R (bind m k) (bind m' k').
Proof.
  intros HM HK e f HR. unfold bind. specialize (HM e f HR). destruct (m e) as [r e1], (m' f) as [r' f1]. destruct HM as [[E HS]|(x & E & HX)]; cbn [fst snd] in E.
  - subst r'. destruct r as [a|x]; [apply HK; exact HS|left; split; [reflexivity|exact HS]].
  - subst r. right. exists x. split; [reflexivity|exact HX].
Qed.
Lemma sims_lift {A} (R : eG -> eH -> Prop) (r : res A) : sims R (lift r) (lift r).
Proof. intros e f HR. left. split; [reflexivity|exact HR]. Qed.
Lemma sims_ret {A} (R : eG -> eH -> Prop) (a : A) : sims R (ret a) (ret a).
Proof. intros e f HR. left. split; [reflexivity|exact HR]. Qed.
Lemma sims_assign (R : eG -> eH -> Prop) (u : eG -> eG) (v : eH -> eH) : (forall e f, R e f -> R (u e) (v f)) -> sims R (assign u) (assign v).
Proof. intros HA e f HR. left. split; [reflexivity|]. apply HA. exact HR. Qed.
(* reading the state *)
Lemma sims_get {B} (R : eG -> eH -> Prop) (k : eG -> St eG B) (k' : eH -> St eH B) : (forall e f, R e f -> sims R (k e) (k' f)) -> sims R (bind get k) (bind get k').
Proof. intros HK e f HR. unfold bind, get. apply HK; exact HR. Qed.

Ltac same := unfold shown, same_but_logs in *; cbn; intros; repeat match goal with A : _ /\ _ |- _ => destruct A end; repeat split; try assumption; congruence.
Lemma best_same (e : eG) (f : eH) : same_but_logs e f -> best e = best f.
Proof. intros (_ & _ & _ & _ & _ & _ & Hp & _ & _ & _ & Hc & _). unfold best, the_compo. rewrite Hp, Hc. reflexivity. Qed.
Lemma population_same (e : eG) (f : eH) : same_but_logs e f -> population e = population f.
Proof. intros (_ & _ & _ & _ & _ & _ & Hp & _ & _ & _ & Hc & _). unfold population, the_compo. rewrite Hc. reflexivity. Qed.

(* the logger is not called inside *)
Lemma catch_sims m m' : (forall e f, shown e f -> fst (m e) = fst (m' f) /\ shown (snd (m e)) (snd (m' f))) -> sims shown (catch m) (catch m').
Proof.
  intros HM e f HR. unfold catch. specialize (HM e f HR). destruct (m e) as [r e1], (m' f) as [r' f1]. cbn [fst snd] in HM. destruct HM as [<- HS].
  left. destruct r as [a|x]; [split; [reflexivity|exact HS]|]. destruct (python_exn x); (split; [reflexivity|cbn [snd]]); [same|exact HS].
Qed.
Lemma discover_exact X y n (e : eG) (f : eH) : shown e f -> fst (discover X y n e) = fst (discover X y n f) /\ shown (snd (discover X y n e)) (snd (discover X y n f)).
Proof.
  intros [HS HL]. unfold discover, bind, get, lift, assign. rewrite (best_same _ _ HS). destruct HS as (Hst & Hco & Hpr & Her & Hfi & Hel & Hpo & Hds & Hcs & Hdi & Hcm & Hma).
  destruct (best f) as [el|x]; [|cbn; split; [reflexivity|same]]. unfold the_disc. rewrite Hdi. destruct (disc f) as [d|] eqn:EDf; cbn [of_option]; [|cbn; split; [reflexivity|same]].
  rewrite Hds, Hst. destruct (nth_error (dseeds f) (step f)) as [s|]; cbn [of_option]; [|cbn; split; [reflexivity|same]].
  rewrite Hpo. destruct (drun D X y (pool f) el n s d) as [r [k d']]. destruct r as [new|x]; cbn; (split; [reflexivity|same]).
Qed.
Lemma compose_exact X y (e : eG) (f : eH) : shown e f -> fst (compose_step X y e) = fst (compose_step X y f) /\ shown (snd (compose_step X y e)) (snd (compose_step X y f)).
Proof.
  intros [HS HL]. unfold compose_step, bind, get, lift, assign. destruct HS as (Hst & Hco & Hpr & Her & Hfi & Hel & Hpo & Hds & Hcs & Hdi & Hcm & Hma).
  unfold the_compo. rewrite Hcm. destruct (compo f) as [c|] eqn:EDf; cbn [of_option]; [|cbn; split; [reflexivity|same]].
  rewrite Hcs, Hst. destruct (nth_error (cseeds f) (step f)) as [s|]; cbn [of_option]; [|cbn; split; [reflexivity|same]].
  rewrite Hpo, Hma. destruct (crun C X y (max_len f) (pool f) s c) as [r c']. destruct r as [u|x]; cbn; (split; [reflexivity|same]).
Qed.
Lemma discover_safely_sims X y n : sims shown (discover_safely X y n) (discover_safely X y n).
Proof.
  unfold discover_safely. apply catch_sims. intros e f HR. destruct (Nat.eqb n 0); [split; [reflexivity|exact HR]|]. apply discover_exact. exact HR.
Qed.
Lemma compose_safely_sims X y : sims shown (compose_safely X y) (compose_safely X y).
Proof. unfold compose_safely. apply catch_sims. intros e f HR. apply compose_exact. exact HR. Qed.
Lemma check_sims p : sims shown (check_early_stopping p) (check_early_stopping p).
Proof.
  unfold check_early_stopping. destruct (Z.ltb 0 (patience p)); [|apply sims_ret]. apply sims_get. intros e f [HS HL]. rewrite (best_same _ _ HS). destruct HS as (Hst & Hco & Hpr & Her & Hfi & Hel & Hpo & Hds & Hcs & Hdi & Hcm & Hma).
  apply sims_bind; [apply sims_lift|]. intros el. apply sims_bind; [apply sims_lift|]. intros b. rewrite Hpr, Hco.
  destruct (nlt _ _); (apply sims_bind; [apply sims_assign; same|intros _; apply sims_ret]).
Qed.
Lemma log_sims (e : eG) (f : eH) (op : lst G -> res (lst G)) (op' : lst H -> res (lst H)) {B} (k : St eG B) (k' : St eH B) :
  shown e f -> (forall l l', op l = Ok l' -> op' (pr l) = Ok (pr l')) -> (forall l x, op l = Raise x -> logger_raises G x) -> sims shown k k' ->
  sims shown (let* l := lift (the_logs e) in let* l' := lift (op l) in assign (set_logs (Some l')) ;; k) (let* l := lift (the_logs f) in let* l' := lift (op' l) in assign (set_logs (Some l')) ;; k').
Proof.
  intros [HS HL] HO HX HK e1 f1 H1. unfold bind, lift, assign. unfold the_logs. rewrite HL. destruct (logs e) as [l|]; cbn [option_map of_option]; [|left; split; [reflexivity|exact H1]].
  destruct (op l) as [l'|x] eqn:EO; [|right; exists x; split; [reflexivity|exact (HX _ _ EO)]]. rewrite (HO _ _ EO).
  apply HK. same.
Qed.
Lemma loop_sims p X y : forall steps, sims shown (main_loop p X y steps) (main_loop p X y steps).
Proof.
  induction steps as [|i steps IH]; [apply sims_ret|]. cbn [main_loop]. apply sims_bind; [apply sims_assign; same|]. intros _.
  apply sims_bind; [apply discover_safely_sims|]. intros b. destruct b; [apply sims_ret|]. apply sims_bind; [apply compose_safely_sims|]. intros b. destruct b; [apply sims_ret|].
  apply sims_get. intros e f HR. destruct HR as [HS HL] eqn:EHR. rewrite (best_same _ _ HS), (population_same _ _ HS).
  assert (Hst : step e = step f) by apply HS. assert (Hpo : pool e = pool f) by apply HS. rewrite Hst, Hpo.
  apply (log_sims e f (fun l => literation G X y (step f) (pool f) (population f) (best f) l) (fun l => literation H X y (step f) (pool f) (population f) (best f) l)).
  - split; assumption.
  - intros l l' E. apply pr_iter. exact E.
  - intros l x E. right. left. exists X, y, (step f), (pool f), (population f), (best f), l. exact E.
  - apply sims_bind; [apply check_sims|]. intros b. destruct b; [apply sims_ret|exact IH].
Qed.
Lemma cleanup_sims : sims shown cleanup cleanup.
Proof.
  unfold cleanup. apply sims_get. intros e f [HS HL]. assert (Hel : elitist e = elitist f) by apply HS. rewrite Hel. apply sims_bind; [apply sims_lift|]. intros m.
  apply sims_bind.
  - destruct m as [|b]; [apply sims_assign; same|]. apply sims_bind; [apply sims_lift|]. intros sub. apply sims_bind; [apply sims_assign; same|]. intros _. apply sims_assign; same.
  - intros _. apply sims_get. intros e1 f1 [HS1 HL1]. unfold the_disc, the_compo. assert (Hd : disc e1 = disc f1) by apply HS1. assert (Hc : compo e1 = compo f1) by apply HS1. rewrite Hd, Hc.
    apply sims_bind; [apply sims_lift|]. intros _. apply sims_bind; [apply sims_assign; same|]. intros _. apply sims_bind; [apply sims_lift|]. intros _. apply sims_assign; same.
Qed.
Lemma finish_sims clean X y : sims shown (finish clean X y) (finish clean X y).
Proof.
  unfold finish. apply sims_get. intros e f [HS HL]. rewrite (best_same _ _ HS). apply sims_bind; [apply sims_lift|]. intros el. apply sims_bind; [apply sims_lift|]. intros b.
  apply sims_bind; [apply sims_assign; same|]. intros _. apply sims_bind; [apply sims_assign; same|]. intros _. apply sims_get. intros e1 f1 H1.
  assert (Hpo : pool e1 = pool f1) by (destruct H1 as [H1 _]; apply H1). rewrite Hpo.
  apply (log_sims e1 f1 (fun l => lfinal G X y (pool f1) (Learned b) l) (fun l => lfinal H X y (pool f1) (Learned b) l)).
  - exact H1.
  - intros l l' E. apply pr_final. exact E.
  - intros l x E. right. right. exists X, y, (pool f1), (Learned b), l. exact E.
  - destruct clean; [apply cleanup_sims|apply sims_ret].
Qed.
(* before the call the loggers may have kept anything *)
Lemma prepare_sims p os X y (e : eG) (f : eH) : same_but_logs e f ->
  (exists x, fst (prepare p os X y e) = Raise x /\ (logger_raises G x \/ fst (prepare p os X y f) = Raise x /\ same_but_logs (snd (prepare p os X y e)) (snd (prepare p os X y f)))) \/
  (fst (prepare p os X y e) = Ok tt /\ fst (prepare p os X y f) = Ok tt /\ shown (snd (prepare p os X y e)) (snd (prepare p os X y f))).
Proof.
  intros HS. unfold prepare. unfold bind, lift, assign. destruct (check_X_y X y) as [u|x]; [|left; exists x; split; [reflexivity|right; split; [reflexivity|same]]].
  destruct (check_random_state (random_state p)) as [u'|x]; [|left; exists x; split; [reflexivity|right; split; [reflexivity|same]]].
  destruct (seed_sequence os (random_state p)) as [s|x]; [|left; exists x; split; [reflexivity|right; split; [reflexivity|same]]].
  destruct (dnew D X) as [d|x]; [|left; exists x; split; [reflexivity|right; split; [reflexivity|same]]].
  destruct (cnew C) as [c|x]; [|left; exists x; split; [reflexivity|right; split; [reflexivity|same]]].
  destruct (linit G) as [l|x] eqn:EL.
  - rewrite (pr_init _ eq_refl). right. split; [reflexivity|]. split; [reflexivity|]. same.
  - left. exists x. split; [reflexivity|]. left. left. exact EL.
Qed.
Lemma fit_sims p os clean X y (e : eG) (f : eH) : same_but_logs e f ->
  (fst (fit p os clean X y e) = fst (fit p os clean X y f) /\ same_but_logs (snd (fit p os clean X y e)) (snd (fit p os clean X y f)) /\
   (fst (fit p os clean X y e) = Ok tt -> logs (snd (fit p os clean X y f)) = option_map pr (logs (snd (fit p os clean X y e))))) \/
  exists x, fst (fit p os clean X y e) = Raise x /\ logger_raises G x.
Proof.
  intros HS. destruct (prepare_sims p os X y e f HS) as [(x & E & [HX|[E' HS']])|(E & E' & HSh)]; unfold fit.
  - right. exists x. unfold bind. destruct (prepare p os X y e) as [r e1]. cbn [fst] in E. subst r. split; [reflexivity|exact HX].
  - left. unfold bind. destruct (prepare p os X y e) as [r e1], (prepare p os X y f) as [r' f1]. cbn [fst snd] in *. subst r r'. split; [reflexivity|]. split; [exact HS'|discriminate].
  - unfold bind. destruct (prepare p os X y e) as [r e1], (prepare p os X y f) as [r' f1]. cbn [fst snd] in *. subst r r'.
    pose (K := fun (T : logger L) => (let* failed := if Nat.ltb 0 (n_initial p) then discover_safely X y (n_initial p) else ret false in
      if failed then ret tt else let* failed := main_loop p X y (seq 0 (n_iter p)) in if failed then ret tt else finish clean X y) : St (est D C T) unit).
    assert (HK : sims shown (K G) (K H)).
    { unfold K. apply sims_bind; [destruct (Nat.ltb 0 (n_initial p)); [apply discover_safely_sims|apply sims_ret]|]. intros b. destruct b; [apply sims_ret|].
      apply sims_bind; [apply loop_sims|]. intros b. destruct b; [apply sims_ret|apply finish_sims]. }
    destruct (HK e1 f1 HSh) as [[E HR]|(x & E & HX)]; [left|right; exists x; split; [exact E|exact HX]].
    unfold K, bind in E, HR. split; [exact E|]. destruct HR as [HR1 HR2]. split; [exact HR1|]. intros _. exact HR2.
Qed.
End Sim.
