(* The components after the preparation. *)
From Coq Require Import String Lia.
From Verif Require Import PyNum PyList PyMon L_List M_Objects S_Objects L_Objects L_Clone L_Params L_Representation L_Prepare.

Section World.
Variable classes : string -> classinfo.
Variable builtins : atom -> list string.
Notation getattr := (getattr classes builtins). Notation setattr := (setattr classes builtins). Notation configured := (configured classes builtins). Notation parameter := (parameter classes builtins).
Notation param_names := (param_names classes). Notation get_params := (get_params classes builtins). Notation set_params := (set_params classes builtins). Notation loc := (loc classes builtins).
Notation clone_value := (clone_value classes builtins). Notation clone := (clone classes builtins). Notation chosen := (chosen classes builtins). Notation leads := (leads classes builtins).
Notation prepare_components := (prepare_components classes builtins). Notation kept := (kept) (only parsing).

Lemma clone_ext f v h : ext h (snd (clone f v h)).
Proof. apply (safe_ext fresh). intros N. apply safe_clone. Qed.
Lemma validated f s n d h c h2 : String.eqb (n ++ "_") "matching_type" = false -> validate classes builtins f (Ref s) n d h = (Ok c, h2) ->
  exists v h1, chosen h s n d v /\ clone f v h = (Ok c, h1) /\ ext h h1 /\ h2 = write h1 s (n ++ "_") c /\ (s < length h)%nat.
Proof.
  intros HN HE. unfold validate in HE. unfold bind at 1, get in HE. unfold bind at 1, lift in HE. destruct (getattr h (Ref s) n) as [v|e] eqn:EG; [|discriminate].
  assert (HS : (s < length h)%nat). { rewrite getattr_stored in EG. destruct (nth_error h s) eqn:E; [|discriminate]. apply nth_error_Some. congruence. }
  apply bind_inv in HE as (c1 & h1 & EC & HE). assert (HX : ext h h1) by (pose proof (clone_ext f (if is_none v then d else v) h) as HX; rewrite EC in HX; exact HX).
  apply bind_inv in HE as (u & h3 & EA & HE). unfold ret in HE. injection HE as <- <-. destruct (nth_error h s) as [o|] eqn:EO; [|apply nth_error_None in EO; lia].
  pose proof (ext_nth _ _ _ _ HX EO) as EO1. rewrite (setattr_plain _ _ _ _ _ _ _ EO1 HN) in EA. injection EA as _ <-. exists (if is_none v then d else v), h1.
  split; [|auto]. destruct v as [[]|]; cbn; try (apply Chosen_given; [exact EG|discriminate]). apply Chosen_default. exact EG.
Qed.
Lemma set_one v n w h u h' : String.eqb n "matching_type" = false -> set_params v [n] w h = (Ok u, h') -> exists p, v = Ref p /\ (p < length h)%nat /\ h' = write h p n w.
Proof.
  intros HN HE. cbn [M_Objects.set_params] in HE. unfold bind at 1, get in HE. unfold bind at 1, lift in HE. destruct (param_names h v) as [ns|] eqn:EP; cbn [of_option] in HE; [|discriminate].
  destruct (negb _); [discriminate|]. destruct v as [a|p]; [discriminate EP|]. exists p. split; [reflexivity|]. cbn in EP. destruct (nth_error h p) as [o|] eqn:EO; [|discriminate].
  split; [apply nth_error_Some; congruence|]. rewrite (setattr_plain _ _ _ _ _ _ _ EO HN) in HE. injection HE as _ <-. reflexivity.
Qed.
Lemma chosen_before f h h1 s n d v : self_only f s h h1 -> ~ In n results -> chosen h1 s n d v -> chosen h s n d v.
Proof.
  intros (_ & (o & o' & E & E' & EC) & HF) HN HC. assert (HG : getattr h1 (Ref s) n = getattr h (Ref s) n) by (rewrite !getattr_stored, E, E', EC, (HF n HN); reflexivity).
  destruct HC as [v HV HNn|HV]; rewrite HG in HV; [apply Chosen_given; assumption|apply Chosen_default; exact HV].
Qed.
Lemma self_only_trans N s h h1 h2 : self_only N s h h1 -> self_only N s h1 h2 -> self_only N s h h2.
Proof.
  intros (A & (o & o' & Ho & Ho' & Hc) & B) (A2 & (o2 & o2' & Ho2 & Ho2' & Hc2) & B2). split; [intros p Hp Hn; rewrite A2, A by assumption; reflexivity|].
  split; [exists o, o2'; split; [exact Ho|]; split; [exact Ho2'|congruence]|]. intros m Hm. rewrite B2, B by exact Hm. reflexivity.
Qed.
(* keys in the first clone, seen from a later heap *)
Definition prims (N : nat) (h1 h2 : heap) : Prop := forall p o, (N <= p)%nat -> nth_error h1 p = Some o ->
  exists o', nth_error h2 p = Some o' /\ cls o' = cls o /\ forall m, stored h2 p m = stored h1 p m \/ exists a, stored h2 p m = Some (Prim a).
Lemma prims_trans N h1 h2 h3 : prims N h1 h2 -> prims N h2 h3 -> prims N h1 h3.
Proof.
  intros H1 H2 p o HP E. destruct (H1 p o HP E) as (o1 & E1 & C1 & F1). destruct (H2 p o1 HP E1) as (o2 & E2 & C2 & F2). exists o2. split; [exact E2|]. split; [congruence|]. intros m.
  destruct (F2 m) as [G2|G2]; [|right; exact G2]. destruct (F1 m) as [G1|(a & G1)]; [left; congruence|right; exists a; congruence].
Qed.
Lemma prims_ext N h h' : ext h h' -> prims N h h'.
Proof. intros HE p o _ E. exists o. pose proof (ext_nth _ _ _ _ HE E) as E'. split; [exact E'|]. split; [reflexivity|]. intros m. left. unfold stored. rewrite E, E'. reflexivity. Qed.
Lemma prims_write N h x n v : (x < N)%nat \/ (exists a, v = Prim a) -> prims N h (write h x n v).
Proof.
  intros HX p o HP E. destruct (shape_write h x n v) as [_ HS]. destruct (HS p o E) as (o' & E' & C'). exists o'. split; [exact E'|]. split; [exact C'|]. intros m. rewrite write_stored.
  destruct (Nat.eqb x p && String.eqb n m) eqn:EE; [|left; reflexivity]. apply andb_prop in EE as [EE _]. apply Nat.eqb_eq in EE. subst p. destruct HX as [HX|(a & ->)]; [lia|].
  right. exists a. assert (HL : Nat.ltb x (length h) = true) by (apply Nat.ltb_lt, nth_error_Some; congruence). rewrite HL. reflexivity.
Qed.
Lemma loc_prims N h1 h2 v key x m : okh N h1 -> prims N h1 h2 -> loc h2 v key x m -> fresh N v -> closed classes builtins h1 v -> loc h1 v key x m.
Proof.
  intros HO HP HL. induction HL as [x ns n HN HI|v ns n w ms key x m HN HI HG HW HL IH]; intros HF HC.
  - destruct HC as [HV _]. cbn in HV. destruct (nth_error h1 x) as [o|] eqn:E; [|apply nth_error_None in E; lia]. destruct (HP x o HF E) as (o' & E' & EC & _).
    eapply Loc_here; [|exact HI]. cbn in HN |- *. rewrite E. rewrite E', EC in HN. exact HN.
  - destruct v as [a|p]; [discriminate HN|]. pose proof (proj1 HC) as HV. cbn in HV. destruct (nth_error h1 p) as [o|] eqn:E; [|apply nth_error_None in E; lia]. destruct (HP p o HF E) as (o' & E' & EC & HFd).
    assert (HN1 : param_names h1 (Ref p) = Some ns) by (cbn in HN |- *; rewrite E; rewrite E', EC in HN; exact HN).
    assert (HG1 : getattr h1 (Ref p) n = Ok w).
    { rewrite getattr_stored, E. rewrite getattr_stored, E', EC in HG. destruct (HFd n) as [G|(a & G)]; [rewrite G in HG; exact HG|]. rewrite G in HG. injection HG as <-. discriminate HW. }
    assert (HVw : valid h1 w) by (exact (proj2 HC _ _ _ _ (Loc_here _ _ _ _ _ _ HN1 HI) HG1)). assert (HFw : fresh N w) by (exact (getattr_fresh _ _ _ _ _ _ _ HO HF HG1)).
    assert (HW1 : param_names h1 w = Some ms).
    { destruct w as [a|q]; [discriminate HW|]. cbn in HVw, HFw, HW |- *. destruct (nth_error h1 q) as [oq|] eqn:EQ; [|apply nth_error_None in EQ; lia]. destruct (HP q oq HFw EQ) as (oq' & EQ' & ECq & _).
      rewrite EQ', ECq in HW. exact HW. }
    eapply Loc_deep; [exact HN1|exact HI|exact HG1|exact HW1|]. apply IH; [exact HFw|]. exact (closed_step _ _ _ _ _ _ _ _ HC HN1 HI HG1 HW1).
Qed.
Lemma loc_prims_forth N h1 h2 v key x m : okh N h1 -> prims N h1 h2 -> fresh N v -> loc h1 v key x m -> (forall n, In n (removelast key) -> forall p o, nth_error h1 p = Some o -> stored h2 p n = stored h1 p n) -> loc h2 v key x m.
Proof.
  intros HO HP HF HL. induction HL as [x ns n HN HI|v ns n w ms key x m HN HI HG HW HL IH]; intros HA.
  - cbn in HN. destruct (nth_error h1 x) as [o|] eqn:E; [|discriminate]. destruct (HP x o HF E) as (o' & E' & EC & _). eapply Loc_here; [cbn; rewrite E', EC; exact HN|exact HI].
  - destruct v as [a|p]; [discriminate HN|]. cbn in HN. destruct (nth_error h1 p) as [o|] eqn:E; [|discriminate]. destruct (HP p o HF E) as (o' & E' & EC & _).
    assert (HFw : fresh N w) by (exact (getattr_fresh _ _ _ _ _ _ _ HO HF HG)). pose proof (loc_nonempty _ _ _ _ _ _ _ HL) as HNE.
    assert (HAn : stored h2 p n = stored h1 p n) by (apply (HA n) with (o := o); [destruct key; [congruence|left; reflexivity]|exact E]).
    eapply (Loc_deep _ _ _ _ ns n w ms); [cbn; rewrite E', EC; exact HN|exact HI|rewrite getattr_stored, E', EC, HAn; rewrite getattr_stored, E in HG; exact HG| |].
    + destruct w as [a|q]; [discriminate HW|]. cbn in HW |- *. destruct (nth_error h1 q) as [oq|] eqn:EQ; [|discriminate]. destruct (HP q oq HFw EQ) as (oq' & EQ' & ECq & _). rewrite EQ', ECq. exact HW.
    + apply IH; [exact HFw|]. intros k HK. apply HA. destruct key; [congruence|right; exact HK].
Qed.
Lemma loc_leads h v key x m : loc h v key x m -> leads h v (removelast key) (Ref x).
Proof.
  intros HL. induction HL as [x ns n HN HI|v ns n w ms key x m HN HI HG HW HL IH]; [constructor|]. pose proof (loc_nonempty _ _ _ _ _ _ _ HL) as HNE. destruct key as [|k key]; [congruence|].
  cbn [removelast]. exact (Leads_on _ _ _ _ _ _ _ _ HG IH).
Qed.
Lemma uses_hook k c hn hm : uses k c hn hm -> hook k c = Some (hn, hm).
Proof. intros HU. destruct HU; reflexivity. Qed.

Definition same_but (h h' : heap) : Prop := forall p o, nth_error h p = Some o -> (exists o', nth_error h' p = Some o') /\ forall m, ~ In m assigned -> stored h' p m = stored h p m.
Lemma same_trans h1 h2 h3 : same_but h1 h2 -> same_but h2 h3 -> same_but h1 h3.
Proof. intros H1 H2 p o E. destruct (H1 p o E) as ((o1 & E1) & F1). destruct (H2 p o1 E1) as (E2 & F2). split; [exact E2|]. intros m HM. rewrite F2, F1 by exact HM. reflexivity. Qed.
Lemma same_ext h h' : ext h h' -> same_but h h'.
Proof. intros HE p o E. pose proof (ext_nth _ _ _ _ HE E) as E'. split; [exists o; exact E'|]. intros m _. unfold stored. rewrite E, E'. reflexivity. Qed.
Lemma same_write h x n v : In n assigned -> same_but h (write h x n v).
Proof.
  intros HI p o E. destruct (shape_write h x n v) as [_ HS]. destruct (HS p o E) as (o' & E' & _). split; [exists o'; exact E'|]. intros m HM. rewrite write_stored.
  destruct (Nat.eqb x p && String.eqb n m) eqn:EE; [|reflexivity]. apply andb_prop in EE as [_ EE]. apply String.eqb_eq in EE. subst m. contradiction.
Qed.
Notation part := (works_on_copy classes builtins).
Lemma part_of f h h1 v c h2 h' : kept h h1 -> valid h v -> (length h <= length h1)%nat -> clone f v h1 = (Ok c, h2) -> kept h2 h' -> part h v h' c.
Proof.
  intros HK HV HL HC HK'. destruct (clone_class _ _ _ _ _ _ _ HC) as (EC & q & -> & HQ). pose proof (clone_ext f v h1) as HX. rewrite HC in HX. cbn [snd] in HX.
  assert (HVq : valid h2 (Ref q)) by (cbn; lia).
  split; [|split].
  - rewrite (class_kept _ _ _ HVq HK'), EC. apply class_kept; assumption.
  - exists q. split; [reflexivity|]. split; [lia|]. exact (valid_kept _ _ _ HK' HVq).
  - intros path a HCf HA HB. apply (configured_kept _ _ _ _ _ _ _ HK'); [|exact HA|exact HB]. apply (clone_copies _ _ _ _ _ _ _ HC). apply (configured_kept _ _ _ _ _ _ _ HK HCf HA HB).
Qed.

Hypothesis usual : usual_classes classes.
Lemma hooks_free c ns : names (classes c) = Some ns -> ~ In "execute"%string ns /\ ~ In "generate_matching_function"%string ns.
Proof. intros HN. destruct usual as [_ HU]. split; apply (HU _ _ HN); cbn; auto. Qed.
Lemma safe_prims N (h h' : heap) : same_below N h h' -> forall p, (p < N)%nat -> nth_error h' p = nth_error h p.
Proof. intros H. exact H. Qed.
Lemma prepared s f drd dsc dmt dlog data ml h u h' :
  sound h -> valid h drd -> valid h dsc -> valid h dmt -> valid h dlog ->
  (forall v, getattr h (Ref s) "n_jobs" = Ok v -> exists a, v = Prim a) ->
  (forall rd0 key w, chosen h s "rule_discovery" drd rd0 -> parameter h rd0 key w -> matching_key key = true -> last key ""%string = "matching_type"%string /\ matching_key (removelast key) = false) ->
  prepare_components f (Ref s) drd dsc dmt dlog data ml h = (Ok u, h') ->
  exists rd0 sc0 mt0 lg0 rd sc mt lg,
    (chosen h s "rule_discovery" drd rd0 /\ stored h' s "rule_discovery_" = Some rd /\ part h rd0 h' rd) /\
    (chosen h s "solution_composition" dsc sc0 /\ stored h' s "solution_composition_" = Some sc /\ part h sc0 h' sc) /\
    (chosen h s "matching_type" dmt mt0 /\ stored h' s "matching_type_" = Some mt /\ part h mt0 h' mt) /\
    (chosen h s "logger" dlog lg0 /\ stored h' s "logger_" = Some lg /\ part h lg0 h' lg) /\
    (forall v, getattr h (Ref s) "n_jobs" = Ok v -> getattr h' rd "n_jobs" = Ok v /\ getattr h' sc "n_jobs" = Ok v) /\
    (exists i fi, getattr h' sc "init" = Ok i /\ getattr h' i "fitness" = Ok fi /\ getattr h' fi "max_genome_length_" = Ok (Prim (AInt ml))) /\
    (forall key v, parameter h' rd key v -> bounds_key key = true -> matching_key (removelast key) = false -> v <> Prim ANone) /\
    (forall key, parameter h rd0 key (Prim ANone) -> bounds_key key = true -> (forall n, In n key -> ~ In n assigned) -> matching_key (removelast key) = false ->
       exists b, parameter h' rd key (Ref b) /\ class_of h' (Ref b) = "ndarray"%string /\ stored h' b "data" = Some (Prim (AData data))) /\
    (forall key w, parameter h' rd key w -> last key ""%string = "matching_type"%string -> matching_key (removelast key) = false ->
       w = mt /\ exists x, leads h' rd (removelast key) (Ref x) /\ forall hn hm, uses (ckind (classes (class_of h' (Ref x)))) (class_of h' mt) hn hm -> stored h' x hn = Some (Prim (AMember hm))) /\
    exists ha hb hc hd, clone f rd0 ha = (Ok rd, hb) /\ kept hb h' /\ clone f sc0 hc = (Ok sc, hd) /\ kept hd h'.
Proof.
  intros HSd HVr HVs HVm HVl HJ HK HE. set (N := length h). pose proof (okh_all h) as HO. fold N in HO. unfold M_Objects.prepare_components in HE.
  apply bind_inv in HE as (rd & h1 & V1 & HE). apply bind_inv in HE as (sc & h2 & V2 & HE). apply bind_inv in HE as (mt & h3 & V3 & HE). apply bind_inv in HE as (lg & h4 & V4 & HE).
  apply bind_inv in HE as (u5 & h5 & E5 & HE). apply bind_inv in HE as (u6 & h6 & E6 & HE). apply bind_inv in HE as (u7 & h7 & E7 & HE).
  destruct (validated f s "rule_discovery" _ _ _ _ eq_refl V1) as (rd0 & h1a & C1 & K1 & X1 & W1 & HS1). assert (HS : (s < N)%nat) by exact HS1.
  assert (HNs : nth_error h s <> None) by (apply nth_error_Some; exact HS1).
  destruct (careful_validate classes builtins N s f "rule_discovery" drd HS (or_introl eq_refl) h HO HNs) as (O1 & SO1 & F1). rewrite V1 in O1, SO1, F1. cbn [fst snd] in O1, SO1, F1. specialize (F1 _ eq_refl).
  assert (HN1 : nth_error h1 s <> None) by (destruct SO1 as (_ & (o & o' & _ & E & _) & _); congruence).
  destruct (careful_validate classes builtins N s f "solution_composition" dsc HS (or_intror (or_introl eq_refl)) h1 O1 HN1) as (O2 & SO2 & F2). rewrite V2 in O2, SO2, F2. cbn [fst snd] in O2, SO2, F2. specialize (F2 _ eq_refl).
  assert (HN2 : nth_error h2 s <> None) by (destruct SO2 as (_ & (o & o' & _ & E & _) & _); congruence).
  destruct (careful_validate classes builtins N s f "matching_type" dmt HS (or_intror (or_intror (or_introl eq_refl))) h2 O2 HN2) as (O3 & SO3 & F3). rewrite V3 in O3, SO3, F3. cbn [fst snd] in O3, SO3, F3. specialize (F3 _ eq_refl).
  assert (HN3 : nth_error h3 s <> None) by (destruct SO3 as (_ & (o & o' & _ & E & _) & _); congruence).
  destruct (careful_validate classes builtins N s f "logger" dlog HS (or_intror (or_intror (or_intror (or_introl eq_refl)))) h3 O3 HN3) as (O4 & SO4 & F4). rewrite V4 in O4, SO4, F4. cbn [fst snd] in O4, SO4, F4. specialize (F4 _ eq_refl).
  destruct (validated f s "solution_composition" _ _ _ _ eq_refl V2) as (sc0 & h2a & C2 & K2 & X2 & W2 & HS2). destruct (validated f s "matching_type" _ _ _ _ eq_refl V3) as (mt0 & h3a & C3 & K3 & X3 & W3 & HS3).
  destruct (validated f s "logger" _ _ _ _ eq_refl V4) as (lg0 & h4a & C4 & K4 & X4 & W4 & HS4). cbn [append] in W1, W2, W3, W4.
  pose proof (self_only_trans _ _ _ _ _ SO1 SO2) as SO12. pose proof (self_only_trans _ _ _ _ _ SO12 SO3) as SO13. pose proof (self_only_trans _ _ _ _ _ SO13 SO4) as SO14.
  assert (HNR : forall n, In n ["solution_composition"; "matching_type"; "logger"; "n_jobs"]%string -> ~ In n results) by (intros n HI HI2; cbn in HI, HI2; intuition (subst; discriminate)).
  apply (chosen_before _ _ _ _ _ _ _ SO1) in C2; [|apply HNR; cbn; auto 6]. apply (chosen_before _ _ _ _ _ _ _ SO12) in C3; [|apply HNR; cbn; auto 6]. apply (chosen_before _ _ _ _ _ _ _ SO13) in C4; [|apply HNR; cbn; auto 6].
  (* validity of what was chosen *)
  assert (HVc : forall n d v, valid h d -> chosen h s n d v -> valid h v).
  { intros n d v HD [v0 HG _|_]; [|exact HD]. apply (getattr_valid classes builtins h HSd (Ref s) n); [exact HS1|exact HG]. }
  pose proof (HVc _ _ _ HVr C1) as HVrd0. pose proof (HVc _ _ _ HVs C2) as HVsc0. pose proof (HVc _ _ _ HVm C3) as HVmt0. pose proof (HVc _ _ _ HVl C4) as HVlg0.
  assert (L1 : length h1 = length h1a) by (subst h1; apply write_length). assert (L2 : length h2 = length h2a) by (subst h2; apply write_length). assert (L3 : length h3 = length h3a) by (subst h3; apply write_length). assert (L4 : length h4 = length h4a) by (subst h4; apply write_length).
  pose proof (proj1 X1) as XL1.
  assert (HA : forall n, In n results -> In n assigned) by (intros n HI; cbn in HI |- *; intuition).
  (* propagate *)
  unfold propagate in E5. unfold bind at 1, get in E5. unfold bind at 1, lift in E5. destruct (getattr h4 (Ref s) "n_jobs") as [jv|e] eqn:EJ; [|discriminate].
  assert (EJ0 : getattr h (Ref s) "n_jobs" = Ok jv).
  { destruct SO14 as (_ & (o & o' & E & E' & EC) & HF). rewrite getattr_stored, E', EC, HF in EJ by (apply HNR; cbn; auto 6). rewrite getattr_stored, E. exact EJ. }
  destruct (HJ _ EJ0) as (ja & ->). apply bind_inv in E5 as (u5' & h5a & P1 & P2).
  destruct (set_one _ "n_jobs" _ _ _ _ eq_refl P1) as (pr & -> & LR & WR). destruct (set_one _ "n_jobs" _ _ _ _ eq_refl P2) as (psc & -> & LS & WS).
  cbn in F1, F2. 
  (* the rest of the preparation *)
  assert (O5 : okh N h5). { pose proof (safe_set_params classes builtins N ["n_jobs"%string] (Ref pr) (Prim ja) F1 I h4 O4) as (A & _). rewrite P1 in A. pose proof (safe_set_params classes builtins N ["n_jobs"%string] (Ref psc) (Prim ja) F2 I h5a A) as (B & _). rewrite P2 in B. exact B. }
  destruct (safe_init_bounds classes builtins N f (Ref pr) data F1 h5 O5) as (O6 & B6 & _). rewrite E6 in O6, B6. cbn [snd] in O6, B6.
  destruct (safe_init_matching classes builtins N f (Ref pr) mt F1 F3 h6 O6) as (O7 & B7 & _). rewrite E7 in O7, B7. cbn [snd] in O7, B7.
  unfold bind at 1, get in HE. unfold bind at 1, lift in HE. destruct (getattr h7 (Ref psc) "init") as [i|e] eqn:EI; [|discriminate]. unfold bind at 1, lift in HE. destruct (getattr h7 i "fitness") as [fi|e] eqn:EF; [|discriminate].
  assert (Fi : fresh N i) by (exact (getattr_fresh _ _ N h7 (Ref psc) _ _ O7 F2 EI)). assert (Ffi : fresh N fi) by (exact (getattr_fresh _ _ _ _ _ _ _ O7 Fi EF)).
  destruct fi as [a|pf]; [discriminate HE|]. assert (LF : exists of, nth_error h7 pf = Some of). { cbn [M_Objects.setattr] in HE. unfold bind at 1, get in HE. unfold bind at 1, lift, lookup in HE. destruct (nth_error h7 pf) as [of|]; [exists of; reflexivity|discriminate]. }
  destruct LF as (of & LF). rewrite (setattr_plain classes builtins pf "max_genome_length_" _ h7 of LF eq_refl) in HE. injection HE as _ <-.
  (* frames *)
  destruct usual as [HArr HRes].
  destruct (bounds_filled classes builtins HArr _ _ _ _ _ _ E6) as (BA & BS & BF & BN & BP & BFl). set (ob := mkObject "ndarray" [("data"%string, Prim (AData data))]) in *. set (h5b := h5 ++ [ob]) in *.
  assert (X5 : ext h5 h5b) by (split; [unfold h5b; rewrite app_length; lia|intros p Hp; unfold h5b; apply nth_error_app1; exact Hp]).
  assert (KP15 : prims N h1a h5).
  { apply (prims_trans _ _ h1); [subst h1; apply prims_write; left; exact HS|]. apply (prims_trans _ _ h2); [apply (prims_trans _ _ h2a); [exact (prims_ext _ _ _ X2)|subst h2; apply prims_write; left; exact HS]|].
    apply (prims_trans _ _ h3); [apply (prims_trans _ _ h3a); [exact (prims_ext _ _ _ X3)|subst h3; apply prims_write; left; exact HS]|].
    apply (prims_trans _ _ h4); [apply (prims_trans _ _ h4a); [exact (prims_ext _ _ _ X4)|subst h4; apply prims_write; left; exact HS]|].
    apply (prims_trans _ _ h5a); [subst h5a; apply prims_write; right; exists ja; reflexivity|subst h5; apply prims_write; right; exists ja; reflexivity]. }
  assert (O1a : okh N h1a) by (pose proof (safe_clone classes builtins N f rd0 h HO) as (A & _); rewrite K1 in A; exact A).
  destruct (clone_mirror classes builtins h HSd _ _ _ _ K1) as (MC & MB & MF & _).
  (* the keys with a matching type are those of the configuration *)
  assert (HK6 : forall key w, parameter h6 (Ref pr) key w -> matching_key key = true -> last key ""%string = "matching_type"%string /\ matching_key (removelast key) = false).
  { intros key w HP HMk. destruct (parameter_loc _ _ _ _ _ _ HP) as (x & m & HL & _). apply (filled_loc classes builtins HArr (length h5) ob h5b h6) in HL; [|exact BFl|unfold h5b; rewrite nth_error_app2 by lia; rewrite Nat.sub_diag; reflexivity|reflexivity].
    pose proof (loc_prims N h1a h5b _ _ _ _ O1a (prims_trans _ _ _ _ KP15 (prims_ext _ _ _ X5)) HL F1 MC) as HL1. destruct (MB _ _ _ HL1) as (w0 & HP0). exact (HK _ _ _ C1 HP0 HMk). }
  destruct (matching_type_reaches classes builtins hooks_free _ _ _ _ _ _ E7 HK6) as (HH & HM).
  set (h' := write h7 pf "max_genome_length_" (Prim (AInt ml))) in *.
  assert (T14 : kept h1 h4).
  { apply (kept_trans _ h2); [apply (kept_trans _ h2a); [exact (kept_ext _ _ X2)|subst h2; apply kept_write; cbn; auto 12]|].
    apply (kept_trans _ h3); [apply (kept_trans _ h3a); [exact (kept_ext _ _ X3)|subst h3; apply kept_write; cbn; auto 12]|].
    apply (kept_trans _ h4a); [exact (kept_ext _ _ X4)|subst h4; apply kept_write; cbn; auto 12]. }
  assert (T45 : kept h4 h5) by (apply (kept_trans _ h5a); [subst h5a; apply kept_write; cbn; auto 12|subst h5; apply kept_write; cbn; auto 12]).
  assert (T5 : kept h5 h'). { apply (kept_trans _ h5b); [exact (kept_ext _ _ X5)|]. apply (kept_trans _ h6); [exact (kept_filled _ _ _ BFl)|]. apply (kept_trans _ h7); [exact (kept_hooked _ _ _ _ _ HH)|unfold h'; apply kept_write; cbn; auto 12]. }
  assert (T4 : kept h4 h') by exact (kept_trans _ _ _ T45 T5).
  assert (T01 : kept h h1) by (apply (kept_trans _ h1a); [exact (kept_ext _ _ X1)|subst h1; apply kept_write; cbn; auto 12]).
  assert (T02 : kept h h2) by (apply (kept_trans _ h1); [exact T01|]; apply (kept_trans _ h2a); [exact (kept_ext _ _ X2)|subst h2; apply kept_write; cbn; auto 12]).
  assert (T03 : kept h h3) by (apply (kept_trans _ h2); [exact T02|]; apply (kept_trans _ h3a); [exact (kept_ext _ _ X3)|subst h3; apply kept_write; cbn; auto 12]).
  assert (T4a : kept h4a h') by (apply (kept_trans _ h4); [subst h4; apply kept_write; cbn; auto 12|exact T4]).
  assert (T3a : kept h3a h') by (apply (kept_trans _ h3); [subst h3; apply kept_write; cbn; auto 12|]; apply (kept_trans _ h4a); [exact (kept_ext _ _ X4)|exact T4a]).
  assert (T2a : kept h2a h') by (apply (kept_trans _ h2); [subst h2; apply kept_write; cbn; auto 12|]; apply (kept_trans _ h3a); [exact (kept_ext _ _ X3)|exact T3a]).
  assert (T1a : kept h1a h') by (apply (kept_trans _ h1); [subst h1; apply kept_write; cbn; auto 12|]; apply (kept_trans _ h4); [exact T14|exact T4]).
  pose proof (proj1 X2) as XL2. pose proof (proj1 X3) as XL3. pose proof (proj1 X4) as XL4.
  (* the estimator itself *)
  assert (HB45 : forall m, stored h' s m = stored h4 s m).
  { intros m. unfold h'. rewrite write_stored. cbn in Ffi. assert (EE : Nat.eqb pf s = false) by (apply Nat.eqb_neq; lia). rewrite EE. cbn [andb]. unfold stored. rewrite B7, B6 by exact HS. 
    subst h5 h5a. rewrite !write_nth. assert (E1 : Nat.eqb psc s = false) by (apply Nat.eqb_neq; lia). assert (E2 : Nat.eqb pr s = false) by (apply Nat.eqb_neq; lia). rewrite E1, E2. reflexivity. }
  assert (HW : forall hh n v m, (s < length hh)%nat -> stored (write hh s n v) s m = if String.eqb n m then Some v else stored hh s m).
  { intros hh n v m HL. rewrite write_stored, Nat.eqb_refl. cbn [andb]. apply Nat.ltb_lt in HL. rewrite HL. reflexivity. }
  assert (HX : forall ha hb m, ext ha hb -> (s < length ha)%nat -> stored hb s m = stored ha s m) by (intros ha hb m [_ HSb] HL; unfold stored; rewrite HSb by exact HL; reflexivity).
  assert (S1 : stored h1 s "rule_discovery_" = Some (Ref pr)) by (subst h1; rewrite HW by lia; reflexivity).
  assert (S2 : stored h2 s "rule_discovery_" = Some (Ref pr) /\ stored h2 s "solution_composition_" = Some (Ref psc)).
  { subst h2. rewrite !HW by lia. cbn [String.eqb Ascii.eqb Bool.eqb]. split; [rewrite (HX h1 h2a) by (assumption || lia); exact S1|reflexivity]. }
  assert (S3 : stored h3 s "rule_discovery_" = Some (Ref pr) /\ stored h3 s "solution_composition_" = Some (Ref psc) /\ stored h3 s "matching_type_" = Some mt).
  { subst h3. rewrite !HW by lia. cbn [String.eqb Ascii.eqb Bool.eqb]. rewrite !(HX h2 h3a) by (assumption || lia). split; [apply S2|]. split; [apply S2|reflexivity]. }
  assert (S4 : stored h4 s "rule_discovery_" = Some (Ref pr) /\ stored h4 s "solution_composition_" = Some (Ref psc) /\ stored h4 s "matching_type_" = Some mt /\ stored h4 s "logger_" = Some lg).
  { subst h4. rewrite !HW by lia. cbn [String.eqb Ascii.eqb Bool.eqb]. rewrite !(HX h3 h4a) by (assumption || lia). split; [apply S3|]. split; [apply S3|]. split; [apply S3|reflexivity]. }
  assert (HFin : forall p m, m <> "max_genome_length_"%string -> stored h' p m = stored h7 p m).
  { intros p m HN. unfold h'. rewrite write_stored. destruct (Nat.eqb pf p && String.eqb "max_genome_length_" m) eqn:EE; [|reflexivity]. apply andb_prop in EE as [_ EE]. apply String.eqb_eq in EE. congruence. }
  assert (SHF : shape h7 h') by (apply shape_write).
  assert (HLoc7 : forall v key x m, loc h' v key x m <-> loc h7 v key x m).
  { assert (HGF : forall v ns n, param_names h7 v = Some ns -> In n ns -> getattr h' v n = getattr h7 v n).
    { intros v ns n HP HI. destruct v as [a|p]; [reflexivity|]. apply getattr_same; [exact SHF|]. apply HFin. intros ->. cbn in HP. destruct (nth_error h7 p) as [o|]; [|discriminate]. apply (HRes _ _ HP "max_genome_length_"%string); [cbn; auto|exact HI]. }
    intros v key x m. split; intros HL.
    - induction HL as [x ns n HP HI|v ns n w ms key x m HP HI HG HW' HL IH].
      + eapply Loc_here; [rewrite <- (shape_names _ _ _ _ SHF); exact HP|exact HI].
      + rewrite (shape_names _ _ _ _ SHF) in HP. rewrite (shape_names _ _ _ _ SHF) in HW'. rewrite (HGF _ _ _ HP HI) in HG. exact (Loc_deep _ _ _ _ _ _ _ _ _ _ _ HP HI HG HW' IH).
    - induction HL as [x ns n HP HI|v ns n w ms key x m HP HI HG HW' HL IH].
      + eapply Loc_here; [rewrite (shape_names _ _ _ _ SHF); exact HP|exact HI].
      + rewrite <- (HGF _ _ _ HP HI) in HG. rewrite <- (shape_names _ _ _ _ SHF) in HP. rewrite <- (shape_names _ _ _ _ SHF) in HW'. exact (Loc_deep _ _ _ _ _ _ _ _ _ _ _ HP HI HG HW' IH). }
  assert (HPar7 : forall key w, key <> [] -> last key ""%string <> "max_genome_length_"%string -> parameter h' (Ref pr) key w <-> parameter h7 (Ref pr) key w).
  { intros key w HNE HLst. split; intros HP; destruct (parameter_loc _ _ _ _ _ _ HP) as (x & m & HL & HG); pose proof (loc_last _ _ _ _ _ _ _ HL) as HLm; subst m.
    - apply (loc_parameter _ _ _ _ _ x (last key ""%string)); [apply HLoc7; exact HL|]. rewrite <- (getattr_same classes builtins _ _ x _ SHF (HFin x _ HLst)). exact HG.
    - apply (loc_parameter _ _ _ _ _ x (last key ""%string)); [apply HLoc7; exact HL|]. rewrite (getattr_same classes builtins _ _ x _ SHF (HFin x _ HLst)). exact HG. }
  assert (HNE : forall hh v key w, parameter hh v key w -> key <> []) by (intros hh v key w HP; destruct HP; discriminate).
  exists rd0, sc0, mt0, lg0, (Ref pr), (Ref psc), mt, lg.
  split; [split; [exact C1|]; split; [rewrite HB45; apply S4|exact (part_of f h h rd0 (Ref pr) h1a h' (kept_refl _) HVrd0 (le_n _) K1 T1a)]|].
  split; [split; [exact C2|]; split; [rewrite HB45; apply S4|apply (part_of f h h1 sc0 (Ref psc) h2a h' T01 HVsc0); [lia|exact K2|exact T2a]]|].
  split; [split; [exact C3|]; split; [rewrite HB45; apply S4|apply (part_of f h h2 mt0 mt h3a h' T02 HVmt0); [lia|exact K3|exact T3a]]|].
  split; [split; [exact C4|]; split; [rewrite HB45; apply S4|apply (part_of f h h3 lg0 lg h4a h' T03 HVlg0); [lia|exact K4|exact T4a]]|].
  split; [|split; [|split; [|split; [|split; [|exists h, h1a, h1, h2a; split; [exact K1|]; split; [exact T1a|]; split; [exact K2|exact T2a]]]]]].
  - intros v HGv. rewrite EJ0 in HGv. injection HGv as <-.
    assert (HG5 : forall p, (p < length h5)%nat -> stored h5 p "n_jobs" = Some (Prim ja) -> getattr h' (Ref p) "n_jobs" = Ok (Prim ja)).
    { intros p HP HSt. assert (HSt6 : stored h6 p "n_jobs" = Some (Prim ja)) by (destruct (BF p "n_jobs"%string HP) as [G|(_ & G & _)]; [congruence|discriminate G]).
      assert (HSt7 : stored h7 p "n_jobs" = Some (Prim ja)).
      { destruct HH as [_ HH]. destruct (HH p "n_jobs"%string) as [G|[(G & _)|(o & hm & _ & EH & _)]]; [congruence|discriminate G|]. destruct (hook_name _ _ _ _ EH) as [G|G]; discriminate G. }
      rewrite getattr_stored, (HFin p _) by discriminate. rewrite HSt7. unfold stored in HSt7. destruct (nth_error h7 p) as [o|] eqn:EO; [|discriminate]. destruct SHF as [_ SHF']. destruct (SHF' p o EO) as (o' & -> & _). reflexivity. }
    assert (LR5 : (pr < length h5)%nat) by (subst h5 h5a; rewrite !write_length; exact LR). assert (LS5 : (psc < length h5)%nat) by (subst h5; rewrite write_length; exact LS).
    assert (Q1 : stored h5a pr "n_jobs" = Some (Prim ja)) by (subst h5a; rewrite write_stored, Nat.eqb_refl; cbn [andb]; rewrite String.eqb_refl; apply Nat.ltb_lt in LR; rewrite LR; reflexivity).
    split; apply HG5; [exact LR5| |exact LS5|].
    + subst h5. rewrite write_stored. apply Nat.ltb_lt in LS. rewrite LS. destruct (_ && _); [reflexivity|exact Q1].
    + subst h5. rewrite write_stored, Nat.eqb_refl. cbn [andb]. rewrite String.eqb_refl. apply Nat.ltb_lt in LS. rewrite LS. reflexivity.
  - exists i, (Ref pf). split; [|split].
    + rewrite (getattr_same classes builtins _ _ psc _ SHF (HFin psc "init"%string ltac:(discriminate))). exact EI.
    + destruct i as [a|pi]; [exact EF|]. rewrite (getattr_same classes builtins _ _ pi _ SHF (HFin pi "fitness"%string ltac:(discriminate))). exact EF.
    + unfold h'. rewrite getattr_stored, write_nth, Nat.eqb_refl, LF. cbn [option_map]. rewrite write_stored, Nat.eqb_refl, String.eqb_refl. cbn [andb].
      assert (HL : Nat.ltb pf (length h7) = true) by (apply Nat.ltb_lt, nth_error_Some; congruence). rewrite HL. reflexivity.
  - intros key v HP HBk HMk. assert (HLb : forall m, In m ["max_genome_length_"; "matching_type"; "execute"; "generate_matching_function"]%string -> last key ""%string <> m).
    { intros m HI E. unfold bounds_key in HBk. rewrite E in HBk. clear - HI HBk. cbn in HI. decompose [or] HI; try contradiction; subst m; discriminate HBk. }
    apply HPar7 in HP; [|exact (HNE _ _ _ _ HP)|apply HLb; cbn; auto]. apply (BN key); [|exact HBk]. destruct (parameter_loc _ _ _ _ _ _ HP) as (x & m & HL & HG). pose proof (loc_last _ _ _ _ _ _ _ HL) as HLm. subst m.
    apply (loc_parameter _ _ _ _ _ x (last key ""%string)); [apply (hooked_loc classes builtins hooks_free _ h6 h7 mt _ _ _ _ HH HMk); exact HL|].
    rewrite <- (getattr_same classes builtins h6 h7 x _ (proj1 HH)); [exact HG|]. destruct HH as [_ HH]. destruct (HH x (last key ""%string)) as [G|[(G & _)|(o & hm & _ & EH & _)]]; [exact G| |]; exfalso.
    + apply (HLb "matching_type"%string); [cbn; auto|exact G].
    + destruct (hook_name _ _ _ _ EH) as [G|G]; eapply HLb; try exact G; cbn; auto.
  - intros key HP HBk HAk HMk. pose proof (MF _ _ HP) as HP1. destruct (parameter_loc _ _ _ _ _ _ HP1) as (x & m & HL1 & HG1). pose proof (loc_last _ _ _ _ _ _ _ HL1) as HLm.
    assert (HInL : In (last key ""%string) key) by (pose proof (HNE _ _ _ _ HP) as HN; destruct (exists_last HN) as (l & a & ->); rewrite last_last; apply in_or_app; right; left; reflexivity).
    assert (SB : same_but h1a h5).
    { apply (same_trans _ h1); [subst h1; apply same_write; cbn; auto 12|]. apply (same_trans _ h2a); [exact (same_ext _ _ X2)|]. apply (same_trans _ h2); [subst h2; apply same_write; cbn; auto 12|].
      apply (same_trans _ h3a); [exact (same_ext _ _ X3)|]. apply (same_trans _ h3); [subst h3; apply same_write; cbn; auto 12|]. apply (same_trans _ h4a); [exact (same_ext _ _ X4)|].
      apply (same_trans _ h4); [subst h4; apply same_write; cbn; auto 12|]. apply (same_trans _ h5a); [subst h5a; apply same_write; cbn; auto 12|subst h5; apply same_write; cbn; auto 12]. }
    assert (HL5 : loc h5 (Ref pr) key x m).
    { apply (loc_prims_forth N h1a); [exact O1a|exact KP15|exact F1|exact HL1|]. intros n HI p o E. destruct (SB p o E) as (_ & HF). apply HF. apply HAk. clear - HI. induction key as [|k key IH]; [destruct HI|]. destruct key as [|k' key]; [destruct HI|].
      destruct HI as [<-|HI]; [left; reflexivity|right; exact (IH HI)]. }
    assert (HG5 : getattr h5 (Ref x) m = Ok (Prim ANone)).
    { destruct (loc_exists _ _ _ _ _ _ _ HL1) as (o1 & EO1). destruct (SB x o1 EO1) as ((o5 & EO5) & HF). rewrite getattr_stored, EO1 in HG1. rewrite getattr_stored, EO5, HF by (rewrite <- HLm; apply HAk; exact HInL).
      destruct (stored h1a x m); [exact HG1|]. destruct (existsb _ _); discriminate HG1. }
    pose proof (BP _ (loc_parameter _ _ _ _ _ _ _ _ HL5 HG5) HBk) as HP6. exists (length h5).
    assert (HLb : forall m0, In m0 ["max_genome_length_"; "matching_type"; "execute"; "generate_matching_function"]%string -> last key ""%string <> m0).
    { intros m0 HI E. unfold bounds_key in HBk. rewrite E in HBk. clear - HI HBk. cbn in HI. decompose [or] HI; try contradiction; subst m0; discriminate HBk. }
    split.
    + apply HPar7; [exact (HNE _ _ _ _ HP)|apply HLb; cbn; auto|]. destruct (parameter_loc _ _ _ _ _ _ HP6) as (y & n & HL6 & HG6). pose proof (loc_last _ _ _ _ _ _ _ HL6) as HLn. subst n.
      apply (loc_parameter _ _ _ _ _ y (last key ""%string)); [apply (hooked_loc classes builtins hooks_free _ h6 h7 mt _ _ _ _ HH HMk); exact HL6|].
      rewrite (getattr_same classes builtins h6 h7 y _ (proj1 HH)); [exact HG6|]. destruct HH as [_ HH]. destruct (HH y (last key ""%string)) as [G|[(G & _)|(o & hm & _ & EH & _)]]; [exact G| |]; exfalso.
      * apply (HLb "matching_type"%string); [cbn; auto|exact G].
      * destruct (hook_name _ _ _ _ EH) as [G|G]; eapply HLb; try exact G; cbn; auto.
    + split; [rewrite (shape_class _ _ _ SHF), (shape_class _ _ _ (proj1 HH)); cbn; rewrite BA; reflexivity|]. rewrite HFin by discriminate.
      assert (Q : stored h6 (length h5) "data" = Some (Prim (AData data))) by (unfold stored; rewrite BA; reflexivity). destruct HH as [_ HH].
      destruct (HH (length h5) "data"%string) as [G|[(G & _)|(o & hm & _ & EH & _)]]; [congruence|discriminate G|]. destruct (hook_name _ _ _ _ EH) as [G|G]; discriminate G.
  - intros key w HP HLst HMk. apply HPar7 in HP; [|exact (HNE _ _ _ _ HP)|rewrite HLst; discriminate]. destruct (HM key w HP HLst HMk) as (EW & x & o & HL & EO & HU). split; [exact EW|]. exists x.
    split; [apply (loc_leads _ _ _ _ "matching_type"%string); apply HLoc7; exact HL|]. intros hn hm HUs. apply uses_hook in HUs.
    assert (EHn : hn <> "max_genome_length_"%string) by (destruct (hook_name _ _ _ _ HUs) as [-> | ->]; discriminate). rewrite HFin by exact EHn. apply HU.
    rewrite !(shape_class _ _ _ SHF) in HUs. cbn in HUs. rewrite EO in HUs. exact HUs.
Qed.

Lemma matching_key_false key : matching_key key = false <-> forall n, In n key -> contains "matching_type" n = false.
Proof.
  unfold matching_key. split.
  - intros H n HI. destruct (contains "matching_type" n) eqn:E; [|reflexivity]. assert (HX : existsb (contains "matching_type") key = true) by (apply existsb_exists; exists n; auto). congruence.
  - intros H. destruct (existsb (contains "matching_type") key) eqn:E; [|reflexivity]. apply existsb_exists in E as (n & HI & HC). rewrite (H n HI) in HC. discriminate.
Qed.
Lemma own_free h v key w : no_own_representation classes builtins h v -> parameter h v key w -> matching_key key = true -> last key ""%string = "matching_type"%string /\ matching_key (removelast key) = false.
Proof.
  intros HN HP HK. destruct (HN _ _ HP) as [H1 H2]. assert (HR : matching_key (removelast key) = false) by (apply matching_key_false; exact H1). split; [|exact HR]. apply H2.
  assert (HNE : key <> []) by (destruct HP; discriminate). rewrite (app_removelast_last ""%string HNE) in HK. unfold matching_key in HK, HR. rewrite existsb_app, HR in HK. cbn in HK. rewrite Bool.orb_false_r in HK. exact HK.
Qed.
Section Fit.
Variables (s f : nat) (drd dsc dmt dlog : val) (data : list (list Q)) (ml : Z) (h : heap) (u : unit) (h' : heap).
Hypothesis (HSd : sound h) (HVr : valid h drd) (HVs : valid h dsc) (HVm : valid h dmt) (HVl : valid h dlog).
Hypothesis HJ : forall v, getattr h (Ref s) "n_jobs" = Ok v -> exists a, v = Prim a.
Hypothesis HOwn : forall rd0, chosen h s "rule_discovery" drd rd0 -> no_own_representation classes builtins h rd0.
Hypothesis HE : prepare_components f (Ref s) drd dsc dmt dlog data ml h = (Ok u, h').
Let P := prepared s f drd dsc dmt dlog data ml h u h' HSd HVr HVs HVm HVl HJ (fun rd0 key w HC => own_free h rd0 key w (HOwn rd0 HC)) HE.
Lemma works_on_copies :
  (exists v c, chosen h s "rule_discovery" drd v /\ stored h' s "rule_discovery_" = Some c /\ part h v h' c) /\
  (exists v c, chosen h s "solution_composition" dsc v /\ stored h' s "solution_composition_" = Some c /\ part h v h' c) /\
  (exists v c, chosen h s "matching_type" dmt v /\ stored h' s "matching_type_" = Some c /\ part h v h' c) /\
  (exists v c, chosen h s "logger" dlog v /\ stored h' s "logger_" = Some c /\ part h v h' c).
Proof.
  destruct P as (rd0 & sc0 & mt0 & lg0 & rd & sc & mt & lg & H1 & H2 & H3 & H4 & _).
  split; [exists rd0, rd; exact H1|]. split; [exists sc0, sc; exact H2|]. split; [exists mt0, mt; exact H3|exists lg0, lg; exact H4].
Qed.
Lemma handed_on rd sc : stored h' s "rule_discovery_" = Some rd -> stored h' s "solution_composition_" = Some sc ->
  (forall v, getattr h (Ref s) "n_jobs" = Ok v -> getattr h' rd "n_jobs" = Ok v /\ getattr h' sc "n_jobs" = Ok v) /\
  (exists i fi, getattr h' sc "init" = Ok i /\ getattr h' i "fitness" = Ok fi /\ getattr h' fi "max_genome_length_" = Ok (Prim (AInt ml))).
Proof.
  destruct P as (rd0 & sc0 & mt0 & lg0 & rd1 & sc1 & mt & lg & (_ & S1 & _) & (_ & S2 & _) & H3 & H4 & H5 & H6 & _). rewrite S1, S2. intros E1 E2. injection E1 as <-. injection E2 as <-. split; [exact H5|exact H6].
Qed.
Lemma bounds_known rd : stored h' s "rule_discovery_" = Some rd ->
  (forall key v, parameter h' rd key v -> ends_with "bounds" (last key ""%string) = true -> (forall n, In n (removelast key) -> contains "matching_type" n = false) -> v <> Prim ANone) /\
  (forall rd0 key, chosen h s "rule_discovery" drd rd0 -> parameter h rd0 key (Prim ANone) -> ends_with "bounds" (last key ""%string) = true -> (forall n, In n key -> ~ In n assigned) ->
     exists b, parameter h' rd key (Ref b) /\ class_of h' (Ref b) = "ndarray"%string /\ stored h' b "data" = Some (Prim (AData data))).
Proof.
  destruct P as (rd0 & sc0 & mt0 & lg0 & rd1 & sc1 & mt & lg & (C1 & S1 & _) & _ & _ & _ & _ & _ & H7 & H8 & _). rewrite S1. intros E1. injection E1 as <-. split.
  - intros key v HP HB HM. apply (H7 key v HP HB). apply matching_key_false. exact HM.
  - intros rd2 key C2 HP HB HA. assert (E : rd2 = rd0) by (destruct C1, C2; congruence). subst rd2. apply (H8 key HP HB HA). apply matching_key_false. exact (proj1 (HOwn _ C1 _ _ HP)).
Qed.
Lemma representation_everywhere rd mt : stored h' s "rule_discovery_" = Some rd -> stored h' s "matching_type_" = Some mt ->
  forall key w, parameter h' rd key w -> last key ""%string = "matching_type"%string -> (forall n, In n (removelast key) -> contains "matching_type" n = false) ->
    w = mt /\ exists x, leads h' rd (removelast key) (Ref x) /\ forall hn hm, uses (ckind (classes (class_of h' (Ref x)))) (class_of h' mt) hn hm -> stored h' x hn = Some (Prim (AMember hm)).
Proof.
  destruct P as (rd0 & sc0 & mt0 & lg0 & rd1 & sc1 & mt1 & lg & (C1 & S1 & _) & _ & (_ & S3 & _) & _ & _ & _ & _ & _ & H9 & _). rewrite S1, S3. intros E1 E2. injection E1 as <-. injection E2 as <-.
  intros key w HP HL HM. apply (H9 key w HP HL). apply matching_key_false. exact HM.
Qed.
Lemma from_clones c : stored h' s "rule_discovery_" = Some c \/ stored h' s "solution_composition_" = Some c -> exists v ha hb, clone f v ha = (Ok c, hb) /\ kept hb h'.
Proof.
  destruct P as (rd0 & sc0 & mt0 & lg0 & rd1 & sc1 & mt1 & lg & (_ & S1 & _) & (_ & S2 & _) & _ & _ & _ & _ & _ & _ & _ & ha & hb & hc & hd & K1 & T1 & K2 & T2). rewrite S1, S2.
  intros [E|E]; injection E as <-; [exists rd0, ha, hb|exists sc0, hc, hd]; split; assumption.
Qed.
End Fit.
End World.
