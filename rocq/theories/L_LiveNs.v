(* Novelty search with workable settings never raises. *)
From Coq Require Import Permutation Lia.
From Verif Require Import PyNum PyList PyMon PyRng L_Num L_List L_Rng M_Matching S_Matching M_Rule S_Rule M_RuleGen L_RuleGen M_Mixing M_GenomeOps M_Discovery S_Discovery L_Discovery L_DiscoveryProps L_SasProps L_SafeFit
  M_Novelty S_Novelty L_Novelty L_NoveltyNum L_NoveltyScore L_NoveltyProps L_NoveltyRun S_Live L_LiveDisc.
From Coq Require Import Lqa.

Lemma select_goes {A} (fit err : A -> num) (vol : A -> Q) same s (rs : list A) n g : rs <> [] -> goes (select_rules fit err vol same s rs n) g (fun _ => True).
Proof.
  intros HN. destruct s; cbn [select_rules].
  - apply goes_ret. exact I.
  - unfold goes. set (fs := filter _ _). set (m := match fs with [] => _ | _ => _ end).
    assert (HM : forall x, fst (m g) = Raise x -> x = ValueError).
    { intros x. unfold m. destruct fs as [|k0 ks].
      - unfold choices. destruct rs; [destruct (Nat.eqb n 0); cbn; congruence|]. destruct (draws n g). cbn. congruence.
      - unfold choices_num. destruct (finites _); [|cbn; congruence]. unfold choices_p. repeat match goal with |- context [if ?b then _ else _] => destruct b end; try (cbn; congruence).
        all: try (destruct (draws n g); cbn; congruence). }
    destruct (m g) as [[o|x] g'] eqn:E; [eauto|]. rewrite (HM x eq_refl). eauto.
  - destruct (front_nonempty err vol same rs HN) as (c & Hc & Hcn).
    eapply goes_bind with (Q := fun c => c <> []); [eapply goes_lift; [exact Hc|exact Hcn]|]. intros c' g1 Hc'. eapply goes_post; [apply goes_choices; exact Hc'|]. auto.
  - eapply goes_post; [apply goes_choices; exact HN|]. auto.
Qed.
Lemma uniform_crossover_goes a b g : length (bnd b) = length (bnd a) -> mt a = mt b ->
  goes (uniform_crossover OrderedBound a b) g (fun cs => Forall (fun m => mt m = mt a) cs).
Proof.
  intros HL HM. unfold uniform_crossover. eapply goes_bind with (Q := fun _ => True); [eapply goes_post; [apply goes_choices; discriminate|auto]|]. intros mask g1 _.
  assert (HP : forall x y : list (Q * Q), length x = length (bnd a) -> length y = length (bnd a) ->
    exists r, rmap (fun i => of_option IndexError (nth_error (if nth i mask false then x else y) i)) (seq 0 (length (bnd a))) = Ok r).
  { intros x y Hx Hy. apply rmap_total. intros i Hi. apply in_seq in Hi. destruct (nth i mask false).
    - destruct (nth_error x i) as [v|] eqn:E; [cbn; eauto|]. apply nth_error_None in E. lia.
    - destruct (nth_error y i) as [v|] eqn:E; [cbn; eauto|]. apply nth_error_None in E. lia. }
  destruct (HP (bnd a) (bnd b)) as (r1 & E1); auto. destruct (HP (bnd b) (bnd a)) as (r2 & E2); auto.
  eapply goes_bind with (Q := fun _ => True); [eapply goes_lift; [exact E1|exact I]|]. intros a' g2 _. eapply goes_bind with (Q := fun _ => True); [eapply goes_lift; [exact E2|exact I]|]. intros b' g3 _.
  apply goes_ret. repeat constructor. symmetry. exact HM.
Qed.
Lemma crossover_goes rate t a b g : t = OrderedBound \/ rate <= 0 -> length (bnd b) = length (bnd a) -> mt a = mt b -> goes (crossover rate t a b) g (fun cs => Forall (fun m => mt m = mt a) cs).
Proof.
  intros HR HL HM. unfold crossover. unfold goes, bind. destruct (random g) as [u g1] eqn:E.
  assert (Hu : 0 <= u) by (unfold random in E; injection E as <- _; apply u01_range).
  destruct (qlt_spec u rate) as [Hlt|_].
  - destruct HR as [->|HR]; [|lra]. apply (uniform_crossover_goes a b g1 HL HM).
  - exists [a; b], g1. split; [reflexivity|]. repeat constructor. symmetry. exact HM.
Qed.

Section Ns.
Variable L : learner.
Variable D : denv L.
Variable d : nat.
Hypothesis HT : table d (dX D) (dy D).
Hypothesis HX : dX D <> [].
Hypothesis HF : forall m e, exists q, rfitness L m e = Fin q.
Hypothesis HP : Forall (pooled L D d) (dpool D).
Hypothesis HE : match delite D with Some bits => length bits = length (dpool D) | None => True end.
Notation inv := (L_NoveltyRun.inv L D d). Notation ext := (L_NoveltyRun.ext L). Notation ok := (L_Discovery.good L D d).
Notation has := (L_Novelty.has L). Notation vld := (L_NoveltyRun.vld L).
Definition typed (t : mtype) (st : nst L) (i : nat) : Prop := exists c, nth_error (cells st) i = Some c /\ mt (cond (crule c)) = t.
Lemma ext_typed t a b i : ext a b -> typed t a i -> typed t b i.
Proof. intros H (c & Hc & Hv). destruct (H i c Hc) as (c' & Hc' & E & _). exists c'. split; [exact Hc'|congruence]. Qed.
Lemma typed_live t st i : typed t st i -> live st i.
Proof. intros (c & Hc & _). eapply cell_live; eauto. Qed.
Lemma goes_on {A} (m : St rng A) st (Q : A -> Prop) : goes m (gen st) Q -> exists a g', on_rng L m st = (Ok a, mkNst (cells st) (arch st) g') /\ Q a.
Proof. intros (a & g' & E & HQ). unfold on_rng. rewrite E. eauto. Qed.
Lemma alloc_all_goes {A} (f : A -> St rng (rule L)) (P : A -> Prop) t : (forall a g, P a -> goes (f a) g (kin L D d t)) ->
  forall l st, Forall P l -> inv st -> exists ids st', mmap (fun a => let* r := on_rng L (f a) in alloc L r) l st = (Ok ids, st') /\
    inv st' /\ ext st st' /\ Forall (typed t st') ids /\ length ids = length l.
Proof.
  intros Hf. induction l as [|a l IH]; intros st HPl HI.
  - exists [], st. split; [reflexivity|]. split; [exact HI|]. split; [apply ext_refl|]. split; [constructor|reflexivity].
  - apply Forall_cons_iff in HPl as [Pa Pl]. destruct (goes_on (f a) st _ (Hf a (gen st) Pa)) as (r & g' & E & [Hok Ht]).
    set (s0 := mkNst (cells st) (arch st) g') in *. destruct (alloc L r s0) as [ri s1] eqn:EA. assert (Hri : ri = Ok (length (cells s0))) by (unfold alloc in EA; congruence). subst ri.
    destruct (alloc_step L D d _ _ _ _ EA (regen_inv L D d st g' HI) Hok) as (I1 & E1 & _).
    destruct (IH s1 Pl I1) as (ids & s2 & EM & I2 & E2 & T2 & HLn). exists (length (cells s0) :: ids), s2. split.
    { cbn [mmap]. rewrite (bind_ok _ _ _ (length (cells s0)) s1); [rewrite (bind_ok _ _ _ _ _ EM); reflexivity|]. rewrite (bind_ok _ _ _ _ _ E). exact EA. }
    split; [exact I2|]. split; [eapply ext_trans; [apply (regen_ext L st g')|]; eapply ext_trans; eauto|]. split; [|cbn; congruence].
    constructor; [|exact T2]. eapply ext_typed; [exact E2|]. exists (mkCell r None None None). split; [|exact Ht]. unfold alloc in EA. injection EA as <-. cbn [cells].
    unfold s0. cbn [cells]. rewrite nth_error_app2 by apply le_n. rewrite Nat.sub_diag. reflexivity.
Qed.
Lemma mutant_goes' c mu m g : space_dim d (d_constraint c) -> rmutation_works mu (mt m) -> length (bnd m) = d -> goes (mutant c mu D (fresh_rule L m)) g (kin L D d (mt m)).
Proof.
  intros HS HM HL. unfold mutant. cbn [cond fresh_rule]. eapply goes_bind; [apply goes_and; [apply mutate_rule_goes; exact HM|intros m' g' H; exact (mutate_rule_len _ _ _ _ _ H)]|].
  intros m' g1 [Ht2 Hm]. assert (HB : length (bnd (constrain (d_constraint c) m')) = d) by (apply constrain_len; [exact HS|congruence]).
  destruct (fitted_total L D d HT _ HB) as (r & Hr). eapply goes_lift; [exact Hr|]. destruct (fitted_good L D d HT _ _ HB Hr) as [H1 H2].
  split; [exact H1|]. rewrite H2, constrain_mt. congruence.
Qed.
Lemma crules_total st ids : Forall (live st) ids -> exists out, mmap (fun i => let* x := cell_of L i in ret (i, crule x)) ids st = (Ok out, st) /\ length out = length ids.
Proof.
  induction 1 as [|i ids Hi HFl IH]; [exists []; split; reflexivity|]. destruct IH as (out & E & HL). destruct (live_cell L st i Hi) as (c & Hc). exists ((i, crule c) :: out). split; [|cbn; congruence].
  cbn [mmap]. rewrite (bind_ok _ _ _ (i, crule c) st); [rewrite (bind_ok _ _ _ _ _ E); reflexivity|]. rewrite (bind_ok _ _ _ c st); [reflexivity|]. unfold cell_of. rewrite Hc. reflexivity.
Qed.
Lemma select_parents_goes c pop st : pop <> [] -> Forall (live st) pop -> exists ps st', select_parents L c pop st = (Ok ps, st').
Proof.
  intros HN HL. unfold select_parents. destruct (crules_total st pop HL) as (rs & E & HLn). rewrite (bind_ok _ _ _ _ _ E).
  assert (HR : rs <> []) by (intros ->; destruct pop; [congruence|discriminate]).
  destruct (goes_on _ st _ (select_goes (fun k : nat * rule L => rfit (snd k)) (fun k => rerr (snd k)) (fun k => rule_volume L (snd k)) (fun a b => Nat.eqb (fst a) (fst b)) (ns_sel c) rs (ns_lambda c) (gen st) HR)) as (ks & g' & E2 & _).
  rewrite (bind_ok _ _ _ _ _ E2). unfold on_rng. destruct (shuffle _ _) as [l g2]. eauto.
Qed.
Lemma make_children_goes c ps st : space_dim d (d_constraint (ns_d c)) -> rmutation_works (ns_mut c) (d_type (ns_d c)) -> d_type (ns_d c) = OrderedBound \/ ns_rate c <= 0 ->
  inv st -> Forall (typed (d_type (ns_d c)) st) ps -> exists ids st', make_children L c D ps st = (Ok ids, st') /\ Forall (typed (d_type (ns_d c)) st') ids.
Proof.
  intros HS HM HR HI HTy. set (t := d_type (ns_d c)) in *. unfold make_children.
  assert (HPr : Forall (fun p : nat * nat => typed t st (fst p) /\ typed t st (snd p)) (pairs ps)).
  { apply Forall_forall. intros p Hp. apply pairs_in in Hp as [A1 A2]. rewrite Forall_forall in HTy. auto. }
  assert (HG : forall l s, cells s = cells st -> arch s = arch st -> Forall (fun p : nat * nat => typed t st (fst p) /\ typed t st (snd p)) l ->
    exists conds g1, mmap (fun p => let* a := cell_of L (fst p) in let* b := cell_of L (snd p) in on_rng L (crossover (ns_rate c) t (cond (crule a)) (cond (crule b)))) l s = (Ok conds, mkNst (cells st) (arch st) g1) /\
      Forall (Forall (fun m => mt m = t /\ length (bnd m) = d)) conds).
  { induction l as [|[i j] l IH]; intros s HC HAr HLl.
    - exists [], (gen s). split; [destruct s; cbn in *; subst; reflexivity|constructor].
    - apply Forall_cons_iff in HLl as [[(ca & Ea & Ta) (cb & Eb & Tb)] HLl]. cbn [fst snd] in *.
      assert (La : length (bnd (cond (crule ca))) = d) by (destruct HI as [HO _]; exact (proj2 (allok_cell L D d _ _ _ (okheap_allok L D d _ HO) Ea))).
      assert (Lb : length (bnd (cond (crule cb))) = d) by (destruct HI as [HO _]; exact (proj2 (allok_cell L D d _ _ _ (okheap_allok L D d _ HO) Eb))).
      destruct (crossover_goes (ns_rate c) t (cond (crule ca)) (cond (crule cb)) (gen s) HR) as (cs & g2 & E & Hcs); [congruence|congruence|].
      destruct (IH (mkNst (cells s) (arch s) g2)) as (conds & g1 & E2 & Hc2); [exact HC|exact HAr|exact HLl|].
      exists (cs :: conds), g1. split.
      + cbn [mmap fst snd]. rewrite (bind_ok _ _ _ cs (mkNst (cells s) (arch s) g2)); [rewrite (bind_ok _ _ _ _ _ E2); reflexivity|].
        rewrite (bind_ok _ _ _ ca s) by (unfold cell_of; rewrite HC, Ea; reflexivity). rewrite (bind_ok _ _ _ cb s) by (unfold cell_of; rewrite HC, Eb; reflexivity). unfold on_rng. rewrite E. reflexivity.
      + constructor; [|exact Hc2]. apply (crossover_len _ _ _ _ _ _ _ d La Lb) in E. rewrite Ta in Hcs. rewrite Forall_forall in *. intros m Hm. split; auto. }
  destruct (HG _ st eq_refl eq_refl HPr) as (conds & g1 & E & HC). rewrite (bind_ok _ _ _ _ _ E).
  destruct (alloc_all_goes (fun m => mutant (ns_d c) (ns_mut c) D (fresh_rule L m)) (fun m => mt m = t /\ length (bnd m) = d) t) with (l := concat conds) (st := mkNst (cells st) (arch st) g1) as (ids & st' & E2 & _ & _ & HTs & _).
  - intros m g [Hm1 Hm2]. rewrite <- Hm1. apply mutant_goes'; [exact HS|rewrite Hm1; exact HM|exact Hm2].
  - apply Forall_forall. intros m Hm. apply in_concat in Hm as (l & Hl & Hm). rewrite Forall_forall in HC. specialize (HC l Hl). rewrite Forall_forall in HC. auto.
  - exact HI.
  - eauto.
Qed.
Lemma ns_loop_goes c : space_dim d (d_constraint (ns_d c)) -> ns_works c -> forall n pop best st, inv st -> pop <> [] -> Forall (typed (d_type (ns_d c)) st) pop ->
  exists out st', ns_loop c D n pop best st = (Ok out, st').
Proof.
  intros HS HW. set (t := d_type (ns_d c)). induction n as [|n IH]; intros pop best st HI HN HTy; cbn [ns_loop]; [eexists _, _; reflexivity|].
  assert (HLp : Forall (live st) pop) by (revert HTy; apply Forall_impl; intros i; apply typed_live).
  destruct (select_parents_goes c pop st HN HLp) as (ps & s1 & E1). rewrite (bind_ok _ _ _ _ _ E1). apply (select_parents_ok L D d) in E1 as (I1 & X1 & P1); [|exact HI].
  assert (T1 : Forall (typed t s1) pop) by (revert HTy; apply Forall_impl; intros i; apply ext_typed; exact X1).
  destruct ps as [|p ps]; [apply IH; assumption|]. set (pps := p :: ps) in *.
  assert (TP : Forall (typed t s1) pps) by (apply Forall_forall; intros i Hi; rewrite Forall_forall in T1; apply T1, P1; exact Hi).
  assert (LP : Forall (live s1) pps) by (revert TP; apply Forall_impl; intros i; apply typed_live).
  destruct (make_children_goes c pps s1 HS (nsw_mut c HW) (nsw_cross c HW) I1 TP) as (ch & s2 & E2 & T2). rewrite (bind_ok _ _ _ _ _ E2).
  apply (make_children_ok L D d HT) in E2 as (I2 & X2 & L2); [|exact HS|exact I1|exact LP].
  destruct (crules_total s2 ch L2) as (rs & E3 & _). assert (EV : exists va, valid_children L ch s2 = (Ok va, s2)) by (unfold valid_children; rewrite (bind_ok _ _ _ _ _ E3); eexists; reflexivity).
  destruct EV as (va & EV). rewrite (bind_ok _ _ _ _ _ EV). apply valid_children_ok in EV as (_ & V1 & _).
  assert (T12 : Forall (typed t s2) pop) by (revert T1; apply Forall_impl; intros i; apply ext_typed; exact X2).
  destruct va as [|v va]; [apply IH; assumption|]. set (vva := v :: va) in *.
  assert (TV : Forall (typed t s2) vva) by (apply Forall_forall; intros i Hi; rewrite Forall_forall in T2; apply T2, V1; exact Hi).
  assert (LV : Forall (live s2) vva) by (revert TV; apply Forall_impl; intros i; apply typed_live).
  destruct (selection_total L D d HT HX HF c vva (ns_mu c) (ns_roh c) s2 I2 LV ltac:(discriminate) (nsw_type c HW)) as (mid & o & rest & new & s4 & E4 & I4 & X4 & C4 & N4 & P4 & Hl4 & _).
  rewrite (bind_ok _ _ _ _ _ E4).
  assert (TP4 : Forall (typed t s4) pps) by (revert TP; apply Forall_impl; intros i Hi; eapply ext_typed; [exact X4|]; eapply ext_typed; eauto).
  assert (LP4 : Forall (live s4) pps) by (revert TP4; apply Forall_impl; intros i; apply typed_live).
  destruct (selection_total L D d HT HX HF c pps (ns_elitists c) 0 s4 I4 LP4 ltac:(discriminate) (nsw_type c HW)) as (mid5 & o5 & rest5 & new5 & s5 & E5 & I5 & X5 & C5 & N5 & P5 & _).
  rewrite (bind_ok _ _ _ _ _ E5). apply IH; [exact I5| |].
  - intros HZ. apply app_eq_nil in HZ as [-> _]. cbn in Hl4. pose proof (nsw_mu c HW). destruct mid; [congruence|]. cbn in Hl4. lia.
  - apply Forall_app. split; apply Forall_forall; intros i Hi.
    + assert (Hin : In i vva) by (apply C4, (Permutation_in _ (Permutation_sym P4)), in_or_app; left; exact Hi). rewrite Forall_forall in TV. eapply ext_typed; [exact X5|]. eapply ext_typed; [exact X4|auto].
    + assert (Hin : In i pps) by (apply C5, (Permutation_in _ (Permutation_sym P5)), in_or_app; left; exact Hi). rewrite Forall_forall in TP4. eapply ext_typed; [exact X5|auto].
Qed.
Lemma ns_run_goes c n st : space_dim d (d_constraint (ns_d c)) -> ns_works c -> (asks (d_origin (ns_d c)) -> (delite D <> None /\ mixing_works (dmix D)) \/ dpool D = []) ->
  inv st -> exists out st', ns_run c D n st = (Ok out, st').
Proof.
  intros HS HW HA HI. unfold ns_run.
  assert (EP : exists pop s1, init_population L c D st = (Ok pop, s1) /\ inv s1 /\ Forall (typed (d_type (ns_d c)) s1) pop /\ pop <> []).
  { unfold init_population. destruct (goes_on _ st _ (origins_go L D d HT HX HP HE (d_origin (ns_d c)) (ns_mu c) (gen st) HA)) as (xs & g' & E & HLx & HXd). rewrite (bind_ok _ _ _ _ _ E).
    destruct (alloc_all_goes (new_rule (ns_d c) D) (fun x => length x = d) (d_type (ns_d c))) with (l := xs) (st := mkNst (cells st) (arch st) g') as (ids & st' & E2 & I2 & _ & T2 & HL2).
    - intros x g Hx. apply new_rule_goes; [exact HT|exact HS|apply (nsw_init c HW)|exact Hx].
    - exact HXd.
    - exact HI.
    - exists ids, st'. split; [exact E2|]. split; [exact I2|]. split; [exact T2|]. pose proof (nsw_mu c HW). intros ->. cbn in HL2. lia. }
  destruct EP as (pop & s1 & E1 & I1 & T1 & N1). rewrite (bind_ok _ _ _ _ _ E1).
  destruct (ns_loop_goes c HS HW (ns_iter c) pop [] s1 I1 N1 T1) as (best & s2 & E2). rewrite (bind_ok _ _ _ _ _ E2).
  assert (L1 : Forall (live s1) pop) by (revert T1; apply Forall_impl; intros i; apply typed_live).
  apply (ns_loop_ok L D d HT HX HF) in E2 as [I2 B2]; [|exact HS|apply (nsw_type c HW)|exact I1|exact L1|constructor].
  assert (HO : exists os, mmap (fun i => let* x := cell_of L i in ret (stripped L x)) (firstn n best) s2 = (Ok os, s2) /\ Forall (fun x => ok (crule x)) os).
  { assert (HB : Forall (fun i => has s2 i /\ vld s2 i) (firstn n best)) by (apply Forall_forall; intros i Hi; rewrite Forall_forall in B2; apply B2; eapply In_firstn; eauto).
    induction HB as [|i l [(x & ds & Hx & Hd) _] HB (os & E & HOs)]; [exists []; split; [reflexivity|constructor]|].
    exists (stripped L x :: os). split; [|constructor; [|exact HOs]].
    - cbn [mmap]. rewrite (bind_ok _ _ _ (stripped L x) s2); [rewrite (bind_ok _ _ _ _ _ E); reflexivity|]. rewrite (bind_ok _ _ _ x s2); [reflexivity|]. unfold cell_of. rewrite Hx. reflexivity.
    - destruct I2 as [O2 _]. exact (allok_cell L D d _ _ _ (okheap_allok L D d _ O2) Hx). }
  destruct HO as (os & E3 & HOs). rewrite (bind_ok _ _ _ _ _ E3).
  assert (HAc : exists out, accepted L (d_accept (ns_d c)) (dy D) os = Ok out).
  { clear E3. induction HOs as [|x os Hx HOs IH]; cbn [accepted]; [eauto|]. destruct (accept_goes L D d HT (d_accept (ns_d c)) (crule x) Hx) as (b & ->). destruct IH as (o & ->). cbn. eauto. }
  destruct HAc as (out & EA). unfold lift. rewrite EA. eauto.
Qed.
End Ns.

Lemma ns_goes (L : learner) c X y d (pool : list (cell L)) el mix n g : table d X y -> X <> [] -> (forall m e, exists q, rfitness L m e = Fin q) ->
  space_dim d (d_constraint (ns_d c)) -> ns_works c -> Forall (searched d X y) pool -> Forall (fun x => matches_some X (crule x)) pool -> one_bit_each el (map crule pool) ->
  (asks (d_origin (ns_d c)) -> (el <> None /\ mixing_works mix) \/ pool = []) -> exists out g', ns_optimize c X y pool el mix n g = (Ok out, g').
Proof.
  intros HT HX HF HS HW HP HM HE HA. unfold ns_optimize. set (D := mkDenv X y (map crule pool) el mix).
  destruct (ns_run_goes L D d HT HX HF) with (c := c) (n := n) (st := mkNst pool (seq 0 (length pool)) g) as (out & st' & E).
  - unfold D. cbn [dpool]. rewrite Forall_map. rewrite Forall_forall in *. intros x Hx. destruct (HP x Hx) as (A & B & _). split; [exact A|]. split; [exact B|]. apply HM. exact Hx.
  - exact HE.
  - exact HS.
  - exact HW.
  - intros Ho. destruct (HA Ho) as [H| ->]; [left; exact H|right; reflexivity].
  - split; cbn [cells arch].
    + unfold okheap. cbn [cells]. revert HP. apply Forall_impl. intros x (A & B & ds & E1 & E2 & E3). split; [split; [exact A|exact B]|]. split; [congruence|]. intros ds' Hd. assert (ds' = ds) by congruence. subst ds'. split; [exact E2|exact E3].
    + apply Forall_forall. intros i Hi. apply in_seq in Hi. destruct (nth_error pool i) as [x|] eqn:Ex; [|apply nth_error_None in Ex; lia].
      rewrite Forall_forall in HP. destruct (HP x (nth_error_In _ _ Ex)) as (_ & _ & ds & E1 & _). exists x, ds. cbn [cells]. auto.
  - rewrite E. eauto.
Qed.
