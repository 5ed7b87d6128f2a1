(* Initial rules and origins that ask the elitist. *)
From Coq Require Import Lia.
From Verif Require Import PyNum PyList PyMon PyRng L_Num L_List L_Rng M_Matching M_Rule M_RuleGen M_Mixing M_Discovery S_Discovery M_Novelty S_Novelty L_SafeFit L_SasProps
  M_Fit S_Fit L_Fit L_FitProps M_Shipped S_Shipped.

Lemma squared_raises {L} use (D : denv L) n g : delite D = None -> dpool D <> [] -> origins (SquaredError use) D n g = (Raise AttributeError, g).
Proof.
  intros HE HP. cbn [origins]. unfold wheel, subgroup. rewrite HE. unfold bind at 1, lift at 1. destruct (dpool D) as [|r rs] eqn:EP; [congruence|].
  unfold squared_weights. rewrite HE. reflexivity.
Qed.
Lemma es_asks {L} c (D : denv L) n kids g use : d_origin (es_d c) = SquaredError use -> delite D = None -> dpool D <> [] ->
  fst (es_optimize c D n kids g) = Raise AttributeError.
Proof. intros HO HE HP. unfold es_optimize. rewrite HO. unfold bind at 1. rewrite squared_raises by auto. reflexivity. Qed.
Lemma rs_asks {L} c (D : denv L) n g use : d_origin (rs_d c) = SquaredError use -> delite D = None -> dpool D <> [] -> (0 < n)%nat ->
  fst (rs_optimize c D n g) = Raise AttributeError.
Proof.
  intros HO HE HP HN. destruct n as [|n]; [lia|]. unfold rs_optimize. cbn [repeat_m]. unfold bind at 1. unfold bind at 1. unfold rs_one at 1. rewrite HO. unfold bind at 1.
  rewrite squared_raises by auto. reflexivity.
Qed.
Lemma ns_asks {L} c X y (cs : list (cell L)) mix n g use : d_origin (ns_d c) = SquaredError use -> cs <> [] ->
  fst (ns_optimize c X y cs None mix n g) = Raise AttributeError.
Proof.
  intros HO HC. unfold ns_optimize, ns_run. unfold bind at 1. unfold init_population at 1. rewrite HO. unfold bind at 1. unfold on_rng at 1. cbn [M_Novelty.gen].
  rewrite squared_raises; [reflexivity|reflexivity|]. cbn [dpool]. destruct cs; [congruence|discriminate].
Qed.
(* after a first call that found rules, a call without an elitist raises *)
Lemma second_raises L rngof (D : discovery L) X y d0 n0 s0 new k d1 n s : asks_elitist L rngof D -> dnew D X = Ok d0 ->
  drun D X y [] None n0 s0 d0 = (Ok new, (k, d1)) -> new <> [] -> (0 < n)%nat -> fst (drun D X y new None n s d1) = Raise AttributeError.
Proof.
  intros HA HN HR Hn HP. destruct HA as [c g use HO|c g use HO|c g use HO].
  - cbn [dnew es_discovery] in HN. unfold es_new in HN. destruct (match es_operator c with EsAnd => _ | _ => _ end) as [c1|x] eqn:E1; [|discriminate]. cbn [rbind] in HN.
    assert (Hc : c1 = c) by (destruct (es_operator c); try (injection E1 as <-; reflexivity); destruct (assert_ _); [injection E1 as <-; reflexivity|discriminate]). subst c1.
    destruct (init_bounds X g) as [k'|x]; [|discriminate]. cbn [rbind] in HN. injection HN as <-. cbn [drun es_discovery] in HR |- *.
    assert (d1 = mkEs (set_constraint k' (es_d c)) (es_iter c) (es_lambda c) (es_operator c) (es_delay c) (es_mut c) (es_sel c)) as -> by congruence.
    cbn [fst]. eapply es_asks; [exact HO|reflexivity|exact Hn].
  - cbn [dnew rs_discovery] in HN. destruct (init_bounds X g) as [k'|x]; [|discriminate]. cbn [rbind] in HN. injection HN as <-. cbn [drun rs_discovery] in HR |- *.
    assert (d1 = mkRs (set_constraint k' (rs_d c)) (rs_generated c) (rs_sel c)) as -> by congruence.
    cbn [fst]. eapply rs_asks; [exact HO|reflexivity|exact Hn|exact HP].
  - cbn [dnew ns_discovery] in HN. unfold ns_new in HN. destruct (assert_ _); [|discriminate]. cbn [rbind] in HN.
    destruct (init_bounds X g) as [k'|x]; [|discriminate]. cbn [rbind] in HN. injection HN as <-. cbn [drun ns_discovery fst snd] in HR |- *.
    destruct (fst (ns_optimize _ _ _ _ _ _ n0 _)) as [out|x]; [|discriminate]. injection HR as <- _ <-. cbn [fst snd app].
    cbn [discovery_env delite option_map]. rewrite (ns_asks _ X y out _ n _ use); [reflexivity|exact HO|]. intros ->. apply Hn. reflexivity.
Qed.
Section Initial.
Variables (L : learner) (rngof : stream -> rng) (D : discovery L) (C : composition L) (G : logger L) (p : params) (X : matrix) (y : targets).
Notation RD := (recorded_d D).
Notation RC := (recorded_c C).
Lemma initial_rules_fail os (e : est RD RC G) r e' d0 new k d1 :
  asks_elitist L rngof D -> ready D C G p X y -> starts_empty C -> (0 < n_iter p)%nat -> (0 < n_rules p)%nat -> (0 < n_initial p)%nat -> (step e < n_iter p)%nat ->
  dnew D X = Ok d0 -> drun D X y [] None (n_initial p) (mkSeed (child_stream (root_seed os (random_state p)) (2 * step e)) 0) d0 = (Ok new, (k, d1)) -> new <> [] ->
  fit p os false X y e = (r, e') -> r = Ok tt /\ is_fitted e' = true /\ is_error e' = true.
Proof.
  intros HA (HG & HS & _ & (c & Hc) & (l & Hl)) HE HI HR HN Hst Hd HD Hnew H. unfold fit in H. unfold bind at 1 in H.
  rewrite (prepare_ok L D C G p os X y e d0 c l HG HS Hd Hc Hl) in H. set (e0 := started L D C G p (root_seed os (random_state p)) e d0 c l) in *.
  assert (H0 : Nat.ltb 0 (n_initial p) = true) by (apply Nat.ltb_lt; auto). rewrite H0 in H. clear H0. unfold bind at 1 in H. unfold discover_safely at 1 in H.
  assert (H0 : Nat.eqb (n_initial p) 0 = false) by (apply Nat.eqb_neq; lia). rewrite H0 in H. clear H0. unfold catch at 1 in H.
  assert (HB : best e0 = Ok None). { unfold best, the_compo. cbn. rewrite (HE c Hc). reflexivity. }
  assert (HSd : nth_error (dseeds e0) (step e0) = Some (mkSeed (child_stream (root_seed os (random_state p)) (2 * step e)) 0)).
  { cbn. unfold fresh_d. rewrite nth_error_map_seq by auto. reflexivity. }
  rewrite (discover_eq L D C G X y e0 (n_initial p) None _ (d0, []) HB eq_refl HSd) in H. unfold disc_out, disc_after in H. cbn [fst snd pool e0 started] in H.
  rewrite HD in H. cbn [fst app] in H.
  match type of H with context [set_pool new ?e1] => set (e1' := set_pool new e1) in H end.
  assert (HB1 : forall i, best (set_step i e1') = Ok None). { intros i. unfold best, the_compo. cbn. rewrite (HE c Hc). reflexivity. }
  destruct (n_iter p) as [|n] eqn:En; [lia|]. unfold bind at 1 in H. cbn [seq main_loop] in H. unfold bind at 1, assign at 1 in H. unfold bind at 1 in H. unfold discover_safely at 1 in H.
  assert (H0 : Nat.eqb (n_rules p) 0 = false) by (apply Nat.eqb_neq; lia). rewrite H0 in H. clear H0. unfold catch at 1 in H.
  assert (HS1 : exists s, nth_error (dseeds (set_step 0 e1')) (step (set_step 0 e1')) = Some s).
  { destruct (nth_error (dseeds (set_step 0 e1')) (step (set_step 0 e1'))) eqn:EN; [eauto|]. exfalso. apply nth_error_None in EN. cbn in EN.
    rewrite update_length in EN. unfold fresh_d in EN. rewrite map_length, seq_length in EN. lia. }
  destruct HS1 as [s1 HS1].
  match type of e1' with _ => assert (HDi : exists cs, disc (set_step 0 e1') = Some ((d1, cs) : dst RD)) by (eexists; reflexivity) end. destruct HDi as [cs HDi].
  rewrite (discover_eq L D C G X y (set_step 0 e1') (n_rules p) None s1 (d1, cs) (HB1 0%nat) HDi HS1) in H. unfold disc_out, disc_after in H. cbn [fst] in H.
  change (pool (set_step 0 e1')) with new in H. pose proof (second_raises L rngof D X y d0 _ _ new k d1 (n_rules p) s1 HA Hd HD Hnew HR) as HX.
  destruct (drun D X y new None (n_rules p) s1 d1) as [r1 [k1 d2]]. cbn [fst] in HX. subst r1. cbn [python_exn] in H. unfold ret in H. injection H as <- <-. auto.
Qed.
End Initial.
