(* Witnesses for the loggers. *)
From Coq Require Import String.
From Verif Require Import PyNum PyList PyMon PyRng L_Num L_List M_Matching M_Rule M_RuleGen M_Mixing M_Fit S_Fit L_Fit L_RuleProps L_DiscoveryEx L_FitEx M_Logging S_Logging L_LogSim.

(* a fit with the default logger: the population consists of the elitist and a worse solution *)
Definition lworks : composition ML :=
  mkComposition (cst works) (cnew works) (crun works) (cbest works) (fun _ => Ok [mkSatts 0 1 1 (Fin 1); mkSatts 1 2 2 (Fin 0)]).
Definition at0 : rng := mkRng (fun _ => 0) 0.
Definition logs_all : logger ML := default_logger ML at0.
Definition lrun (D : discovery ML) (C : composition ML) (G : logger ML) p := fit p 0 false dx dyy (unfitted (recorded_d D) (recorded_c C) G).
Definition lend_of D C G p := snd (lrun D C G p).
Lemma lran_to D C G p r : fst (lrun D C G p) = r -> fit p 0 false dx dyy (unfitted (recorded_d D) (recorded_c C) G) = (r, lend_of D C G p).
Proof. apply ended. Qed.
Definition lend := lend_of finds lworks logs_all par1.
Lemma lready : ready finds lworks logs_all par1 dx dyy.
Proof.
  split; [|split; [discriminate|split; [eexists; reflexivity|split; eexists; reflexivity]]].
  split; [exists 1%nat; split; [discriminate|split; [discriminate|repeat constructor]]|reflexivity].
Qed.
Lemma lran : fit par1 0 false dx dyy (unfitted (recorded_d finds) (recorded_c lworks) logs_all) = (Ok tt, lend).
Proof. apply lran_to. vm_compute. reflexivity. Qed.

(* the elitist keeps one random rule out of two: scoring it changes what it predicts next *)
Definition coin : elite ML := mkElite [true; true] [on_data dx dyy 0 1; on_data dx dyy 0 2] (mkMixing (NRandom 1) ExpAsIs 1) (mkSatts 0 2 2 (Fin 1)).
Definition flips : rng := mkRng (fun k => if Nat.eqb k 0 then 0 else 1) 0.
Definition first_answer := match fst (sol_predict ML (emix coin) (ebits coin) (epool coin) dx false flips) with Ok p => p | Raise _ => [] end.
Definition second_answer := match fst (sol_predict ML (emix coin) (ebits coin) (epool coin) dx false (snd (sol_predict ML (emix coin) (ebits coin) (epool coin) dx false flips))) with Ok p => p | Raise _ => [] end.
Definition coin_score := match elite_score flips coin dx dyy with Ok s => s | Raise _ => NaN end.
Lemma scoring_draws : exists (L : learner) (b : elite L) (g : rng) X y s p p',
  elite_score g b X y = Ok s /\ fst (sol_predict L (emix b) (ebits b) (epool b) X false g) = Ok p /\
  fst (sol_predict L (emix b) (ebits b) (epool b) X false (snd (sol_predict L (emix b) (ebits b) (epool b) X false g))) = Ok p' /\ ~ Forall2 Qeq p p'.
Proof.
  exists ML, coin, flips, dx, dyy, coin_score, first_answer, second_answer.
  split; [vm_compute; reflexivity|]. split; [vm_compute; reflexivity|]. split; [vm_compute; reflexivity|].
  intros H. assert (E : forallb (fun pq => qeq (fst pq) (snd pq)) (combine first_answer second_answer) = false) by (vm_compute; reflexivity).
  revert E. induction H as [|a b l l' Hab H IH]; cbn; [discriminate|]. unfold qeq at 1. cbn. assert (E1 : Qeq_bool a b = true) by (apply Qeq_bool_iff; exact Hab). rewrite E1. exact IH.
Qed.

(* ----- instances of the simulation ----- *)
Lemma only_by_raising (L : learner) (D : discovery L) (C : composition L) (G : logger L) p os clean X y (e : est D C G) (f : est D C no_logger) : same_but_logs e f ->
  (fst (fit p os clean X y e) = fst (fit p os clean X y f) /\ same_but_logs (snd (fit p os clean X y e)) (snd (fit p os clean X y f))) \/
  exists x, fst (fit p os clean X y e) = Raise x /\ logger_raises G x.
Proof.
  intros HS. destruct (fit_sims L D C G no_logger (fun _ => tt)) with (p := p) (os := os) (clean := clean) (X := X) (y := y) (e := e) (f := f) as [(A & B & _)|H]; auto.
Qed.
Lemma quiet_raises (L : learner) (G : logger L) x : quiet G -> ~ logger_raises G x.
Proof.
  intros ((l & HI) & HT & HF) [H|[(X & y & i & p & s & b & l' & H)|(X & y & p & m & l' & H)]].
  - congruence.
  - destruct (HT X y i p s b l') as (? & E). congruence.
  - destruct (HF X y p m l') as (? & E). congruence.
Qed.
Lemma quiet_same (L : learner) (D : discovery L) (C : composition L) (G H : logger L) calls : quiet G -> quiet H ->
  same_but_logs (after D C G calls) (after D C H calls).
Proof.
  intros HG HH.
  assert (HB : forall T, quiet T -> same_but_logs (after D C T calls) (after D C no_logger calls)).
  { intros T HT. unfold after. assert (HS : same_but_logs (unfitted D C T) (unfitted D C no_logger)) by (repeat split).
    revert HS. generalize (unfitted D C T) (unfitted D C (@no_logger L)). induction calls as [|c calls IH]; intros e f HS; cbn [fold_left]; [exact HS|]. apply IH. unfold do_call.
    destruct (only_by_raising L D C T (cparams c) (cos c) (cclean c) (cX c) (cy c) e f HS) as [[_ H1]|(x & _ & HX)]; [exact H1|]. destruct (quiet_raises L T x HT HX). }
  pose proof (HB G HG) as A. pose proof (HB H HH) as B. unfold same_but_logs in *. repeat match goal with A : _ /\ _ |- _ => destruct A end. repeat split; congruence.
Qed.
Lemma both_iter_l (L : learner) (G H : logger L) X y i p s b l l' : literation (both G H) X y i p s b l = Ok l' -> literation G X y i p s b (fst l) = Ok (fst l').
Proof. cbn. destruct (literation G X y i p s b (fst l)); cbn; [|discriminate]. destruct (literation H X y i p s b (snd l)); cbn; [|discriminate]. intros E. injection E as <-. reflexivity. Qed.
Lemma both_iter_r (L : learner) (G H : logger L) X y i p s b l l' : literation (both G H) X y i p s b l = Ok l' -> literation H X y i p s b (snd l) = Ok (snd l').
Proof. cbn. destruct (literation G X y i p s b (fst l)); cbn; [|discriminate]. destruct (literation H X y i p s b (snd l)); cbn; [|discriminate]. intros E. injection E as <-. reflexivity. Qed.
Lemma both_final_l (L : learner) (G H : logger L) X y p m l l' : lfinal (both G H) X y p m l = Ok l' -> lfinal G X y p m (fst l) = Ok (fst l').
Proof. cbn. destruct (lfinal G X y p m (fst l)); cbn; [|discriminate]. destruct (lfinal H X y p m (snd l)); cbn; [|discriminate]. intros E. injection E as <-. reflexivity. Qed.
Lemma both_final_r (L : learner) (G H : logger L) X y p m l l' : lfinal (both G H) X y p m l = Ok l' -> lfinal H X y p m (snd l) = Ok (snd l').
Proof. cbn. destruct (lfinal G X y p m (fst l)); cbn; [|discriminate]. destruct (lfinal H X y p m (snd l)); cbn; [|discriminate]. intros E. injection E as <-. reflexivity. Qed.
Lemma both_init_l (L : learner) (G H : logger L) l : linit (both G H) = Ok l -> linit G = Ok (fst l).
Proof. cbn. destruct (linit G); cbn; [|discriminate]. destruct (linit H); cbn; [|discriminate]. intros E. injection E as <-. reflexivity. Qed.
Lemma both_init_r (L : learner) (G H : logger L) l : linit (both G H) = Ok l -> linit H = Ok (snd l).
Proof. cbn. destruct (linit G); cbn; [|discriminate]. destruct (linit H); cbn; [|discriminate]. intros E. injection E as <-. reflexivity. Qed.
Lemma members_alone (L : learner) (D : discovery L) (C : composition L) (G : logger L) (Gs : list (logger L)) p os clean X y
  (e e' : est D C (combined_logger (G :: Gs))) (f : est D C G) (h : est D C (combined_logger Gs)) : same_but_logs e f -> same_but_logs e h ->
  fit p os clean X y e = (Ok tt, e') ->
  exists f' h', fit p os clean X y f = (Ok tt, f') /\ fit p os clean X y h = (Ok tt, h') /\ same_but_logs e' f' /\ same_but_logs e' h' /\
    logs f' = option_map fst (logs e') /\ logs h' = option_map snd (logs e').
Proof.
  intros HF HH HE.
  destruct (fit_sims L D C (combined_logger (G :: Gs)) G (fun z => fst z) (both_init_l L G _) (both_iter_l L G _) (both_final_l L G _) p os clean X y e f HF) as [(A1 & A2 & A3)|(x & A & _)]; [|rewrite HE in A; discriminate].
  destruct (fit_sims L D C (combined_logger (G :: Gs)) (combined_logger Gs) (fun z => snd z) (both_init_r L G _) (both_iter_r L G _) (both_final_r L G _) p os clean X y e h HH) as [(B1 & B2 & B3)|(x & B & _)]; [|rewrite HE in B; discriminate].
  rewrite HE in *. cbn [fst snd] in *. exists (snd (fit p os clean X y f)), (snd (fit p os clean X y h)). split; [apply ended; congruence|]. split; [apply ended; congruence|].
  split; [exact A2|]. split; [exact B2|]. split; [apply A3; reflexivity|apply B3; reflexivity].
Qed.
