(* The model that fit ends with is what the last composition step reports. *)
From Coq Require Import Lia.
From Verif Require Import PyNum PyList PyMon PyRng M_Matching M_Rule M_Mixing M_Solution M_Composition M_Fit M_Shipped S_ColdFit.

Section Last.
Context {L : learner} {D : discovery L} {C : composition L} {G : logger L}.
Variables (X : matrix) (y : targets) (cs : list seedseq) (n : nat).
Local Notation est := (est D C G).
Definition kept (e : est) : Prop := cseeds e = cs /\ max_len e = n.
Definition composed (e : est) : Prop := exists z z' s, compo e = Some z' /\ nth_error cs (step e) = Some s /\ crun C X y n (pool e) s z = (Ok tt, z').
Lemma discover_kept k (e e' : est) r : discover X y k e = (r, e') -> kept e -> kept e'.
Proof.
  intros H [H1 H2]. unfold discover, bind, get, lift, assign in H.
  destruct (best e) as [el|x]; [|injection H as <- <-; split; assumption]. destruct (the_disc e) as [d|x]; [|injection H as <- <-; split; assumption].
  destruct (of_option IndexError (nth_error (dseeds e) (step e))) as [s|x]; [|injection H as <- <-; split; assumption].
  destruct (drun D X y (pool e) el k s d) as [[new|x] [q d']]; injection H as <- <-; split; assumption.
Qed.
Lemma discovered k (e e' : est) b : discover_safely X y k e = (Ok b, e') -> kept e -> kept e' /\ (b = true -> is_error e' = true).
Proof.
  unfold discover_safely, catch. intros H HK.
  destruct ((if Nat.eqb k 0 then raise TypeError else discover X y k) e) as [r u] eqn:E.
  assert (HU : kept u) by (destruct (Nat.eqb k 0); [injection E as _ <-; exact HK|exact (discover_kept k e u r E HK)]).
  destruct r as [v|x]; [injection H as <- <-; split; [exact HU|discriminate]|]. destruct (python_exn x); [|discriminate]. injection H as <- <-. split; [exact HU|reflexivity].
Qed.
Lemma composed_now (e e' : est) b : compose_safely X y e = (Ok b, e') -> kept e -> if b then is_error e' = true else kept e' /\ composed e'.
Proof.
  unfold compose_safely, catch. intros H [H1 H2]. destruct (compose_step X y e) as [[v|x] u] eqn:E.
  - injection H as <- <-. unfold compose_step, bind, get, lift, assign in E. destruct (the_compo e) as [z|x]; [|discriminate].
    destruct (nth_error (cseeds e) (step e)) as [s|] eqn:Es; cbn [of_option] in E; [|discriminate]. destruct (crun C X y (max_len e) (pool e) s z) as [[[]|x] z'] eqn:Ec; [|discriminate].
    injection E as _ <-. split; [split; assumption|]. exists z, z', s. split; [reflexivity|]. rewrite H1 in Es. rewrite H2 in Ec. split; assumption.
  - destruct (python_exn x); [|discriminate]. injection H as <- <-. reflexivity.
Qed.
Lemma checked p (e e' : est) b : check_early_stopping p e = (Ok b, e') -> kept e -> composed e -> kept e' /\ composed e'.
Proof.
  unfold check_early_stopping, bind, get, lift, assign, ret. intros H HK HC. destruct (Z.ltb 0 (patience p)); [|injection H as _ <-; split; assumption].
  destruct (best e) as [el|x]; [|discriminate]. destruct (of_option AttributeError el) as [w|x]; [|discriminate]. destruct (nlt _ _); injection H as _ <-; split; assumption.
Qed.
Lemma looped p steps (e e' : est) b : main_loop p X y steps e = (Ok b, e') -> kept e -> composed e \/ steps <> [] -> if b then is_error e' = true else kept e' /\ composed e'.
Proof.
  revert e. induction steps as [|i steps IH]; intros e H HK HS.
  - injection H as <- <-. destruct HS as [HS|HS]; [split; assumption|contradiction HS; reflexivity].
  - clear HS. cbn [main_loop] in H. unfold bind at 1, assign at 1 in H. assert (HK1 : kept (set_step i e)) by exact HK. revert H HK1. generalize (set_step i e). clear e HK. intros e H HK.
    unfold bind at 1 in H. destruct (discover_safely X y (n_rules p) e) as [[f|x] e1] eqn:E1; [|discriminate]. destruct (discovered _ _ _ _ E1 HK) as [HK1 HE1].
    destruct f; [injection H as <- <-; apply HE1; reflexivity|]. unfold bind at 1 in H. destruct (compose_safely X y e1) as [[f|x] e2] eqn:E2; [|discriminate]. pose proof (composed_now _ _ _ E2 HK1) as HC.
    destruct f; [injection H as <- <-; exact HC|]. destruct HC as [HK2 HC2]. unfold bind at 1, get at 1 in H. unfold bind at 1, lift at 1 in H. destruct (the_logs e2) as [l|x]; [|discriminate].
    unfold bind at 1, lift at 1 in H. destruct (literation _ _ _ _ _ _ _ l) as [l'|x]; [|discriminate]. unfold bind at 1, assign at 1 in H.
    assert (HK3 : kept (set_logs (Some l') e2)) by exact HK2. assert (HC3 : composed (set_logs (Some l') e2)) by exact HC2. revert H HK3 HC3. generalize (set_logs (Some l') e2). clear - IH. intros e H HK HC.
    unfold bind at 1 in H. destruct (check_early_stopping p e) as [[f|x] e1] eqn:E1; [|discriminate]. destruct (checked p e e1 f E1 HK HC) as [HK1 HC1].
    destruct f; [injection H as <- <-; split; assumption|]. apply (IH e1 H HK1). left. exact HC1.
Qed.
End Last.

(* what prepare sets *)
Definition seeds_of (p : params) (os : Z) : option (list seedseq) := match seed_sequence os (random_state p) with Ok s => Some (odds (fst (spawn s (n_iter p * 2)%nat))) | Raise _ => None end.
Lemma prepared {L} {D : discovery L} {C : composition L} {G : logger L} p os X y (e e' : est D C G) : prepare p os X y e = (Ok tt, e') ->
  exists cs, seeds_of p os = Some cs /\ kept cs (n_rules p * n_iter p + n_initial p)%nat e'.
Proof.
  unfold prepare, bind, assign, lift, seeds_of. intros H. destruct (check_X_y X y); [|discriminate]. destruct (check_random_state (random_state p)); [|discriminate].
  destruct (seed_sequence os (random_state p)) as [s|]; [|discriminate]. destruct (dnew D X); [|discriminate]. destruct (cnew C); [|discriminate]. destruct (linit G); [|discriminate].
  injection H as <-. eexists. split; [reflexivity|]. split; reflexivity.
Qed.
Lemma fitted_last {L} {D : discovery L} {C : composition L} {G : logger L} p os X y (e e' : est D C G) : fit p os false X y e = (Ok tt, e') -> is_error e' = false -> (0 < n_iter p)%nat ->
  exists cs z z' s b, seeds_of p os = Some cs /\ nth_error cs (step e') = Some s /\ crun C X y (n_rules p * n_iter p + n_initial p)%nat (pool e') s z = (Ok tt, z') /\ cbest C z' = Ok (Some b) /\
    M_Fit.elitist e' = Some (Learned (with_pool (pool e') b)).
Proof.
  intros H HE HN. unfold fit in H. unfold bind at 1 in H. destruct (prepare p os X y e) as [[[]|x] e1] eqn:E1; [|discriminate]. destruct (prepared p os X y e e1 E1) as (cs & Hcs & HK1).
  unfold bind at 1 in H. destruct ((if Nat.ltb 0 (n_initial p) then discover_safely X y (n_initial p) else ret false) e1) as [[f|x] e2] eqn:E2; [|discriminate].
  assert (HK2 : kept cs (n_rules p * n_iter p + n_initial p)%nat e2 /\ (f = true -> is_error e2 = true)).
  { destruct (Nat.ltb 0 (n_initial p)); [exact (discovered X y _ _ _ _ _ _ E2 HK1)|]. injection E2 as <- <-. split; [exact HK1|discriminate]. }
  destruct HK2 as [HK2 HF2]. destruct f; [injection H as <-; rewrite HF2 in HE by reflexivity; discriminate|].
  unfold bind at 1 in H. destruct (main_loop p X y (seq 0 (n_iter p)) e2) as [[f|x] e3] eqn:E3; [|discriminate].
  assert (HS : seq 0 (n_iter p) <> []) by (destruct (n_iter p); [lia|discriminate]).
  pose proof (looped X y cs _ p _ e2 e3 f E3 HK2 (or_intror HS)) as HL. destruct f; [injection H as <-; rewrite HL in HE; discriminate|]. destruct HL as [_ (z & z' & s & Hz & Hs & Hc)].
  unfold finish, bind, get, lift, assign, ret in H. destruct (best e3) as [el|x] eqn:Eb; [|discriminate]. destruct el as [w|]; cbn [of_option] in H; [|discriminate].
  match type of H with context [the_logs ?u] => change (the_logs u) with (the_logs e3) in H end. destruct (the_logs e3) as [l|x]; [|discriminate].
  destruct (lfinal G X y _ (Learned w) l) as [l'|x]; [|discriminate]. injection H as <-. cbn [step pool M_Fit.elitist set_logs set_status set_elitist].
  unfold best, the_compo in Eb. rewrite Hz in Eb. cbn [of_option rbind] in Eb. destruct (cbest C z') as [[b|]|x] eqn:Ez; try discriminate. injection Eb as <-.
  exists cs, z, z', s, b. auto.
Qed.
Lemma same_model {L} {D D' : discovery L} {C : composition L} {G G' : logger L} p p' os X y (d e : est D C G) (d' e' : est D' C G') :
  (forall k pool s z z', fst (crun C X y k pool s z) = Ok tt -> cbest C (snd (crun C X y k pool s z)) = cbest C (snd (crun C X y k pool s z'))) ->
  random_state p = random_state p' -> n_iter p = n_iter p' -> n_rules p = n_rules p' -> n_initial p = n_initial p' -> (0 < n_iter p)%nat ->
  fit p os false X y d = (Ok tt, e) -> fit p' os false X y d' = (Ok tt, e') -> is_error e = false -> is_error e' = false -> step e = step e' -> pool e = pool e' -> M_Fit.elitist e = M_Fit.elitist e'.
Proof.
  intros HF Hr Hi Hn Hm HN H H' HE HE' Hs Hp.
  destruct (fitted_last p os X y d e H HE HN) as (cs & z & w & s & b & H1 & H2 & H3 & H4 & ->). rewrite Hi in HN.
  destruct (fitted_last p' os X y d' e' H' HE' HN) as (cs' & z' & w' & s' & b' & H1' & H2' & H3' & H4' & ->).
  unfold seeds_of in *. rewrite Hr, Hi in H1. rewrite H1 in H1'. injection H1' as <-. rewrite <- Hs, H2 in H2'. injection H2' as <-. rewrite <- Hn, <- Hi, <- Hm, <- Hp in H3'.
  pose proof (HF (n_rules p * n_iter p + n_initial p)%nat (pool e) s z z') as HB. rewrite H3, H3' in HB. specialize (HB eq_refl). cbn [snd] in HB. rewrite H4, H4' in HB. injection HB as ->. rewrite Hp. reflexivity.
Qed.
