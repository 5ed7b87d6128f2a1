(* Saved models. *)
From Coq Require Import String Ascii.
From Verif Require Import PyNum PyList PyMon PyRng M_Matching M_Rule M_RuleGen M_Mixing M_Fit M_Json M_Classes M_Saved S_Objects S_Json S_Saved L_List L_Text L_Forest L_Fold L_Json L_JsonProps.
From Verif Require M_Objects.
Local Open Scope string_scope.
Local Open Scope list_scope.

Section Classes.
Variable classes : string -> option cinfo.
Notation parametrised := (parametrised classes).
Notation orderly := (orderly classes).
Notation peval := (peval classes).
Notation fval := (fval classes).
Notation p_of := (p_of classes).
Notation ps_of := (ps_of classes).

(* ----- objects inside ----- *)
Lemma kept_object n w0 (kids : list (string * jv)) v' n0 t : renew classes w0 = Ok v' -> assoc ((n0, w0) :: kids) n = Some (JObj t) -> assoc ((n0, v') :: kids) n = Some (JObj t).
Proof. intros R A. cbn [assoc] in *. destruct (String.eqb n0 n); [|exact A]. injection A as ->. now injection R as <-. Qed.
Lemma path_parametrised t n path u : value_at classes t (n :: path) = Some u -> parametrised t = true.
Proof.
  destruct t as [| | | |c qs]; try discriminate. cbn [value_at S_Json.parametrised]. destruct (has_params classes c); [|discriminate]. destruct qs; [discriminate|reflexivity].
Qed.
Lemma back_object path : forall t t' u, orderly t = true -> parametrised t = true -> peval (p_of t) = Some (JObj t') -> value_at classes t path = Some u -> parametrised u = true ->
  exists u', peval (p_of u) = Some (JObj u') /\ value_at classes t' path = Some u'.
Proof.
  induction path as [|n path IH]; intros t t' v O P E V Pv.
  - cbn in V. injection V as ->. now exists t'.
  - destruct t as [p| |r| |c ps]; try discriminate P. cbn [value_at] in V. destruct (orderly_obj classes c ps P O) as (i & Ei & Ci & D & Dec & Pl & N & C & A).
    unfold has_params in V. rewrite Ei, Ci in V. destruct (assoc ps n) as [u|] eqn:Au; [|discriminate V]. pose proof (assoc_in _ _ _ Au) as Iu.
    assert (Ou : orderly u = true) by (rewrite Forall_forall in A; exact (A _ Iu)).
    assert (Pu : parametrised u = true) by (destruct path; [injection V as ->; exact Pv|exact (path_parametrised _ _ _ _ V)]).
    rewrite (p_of_obj classes c ps P), peval_open in E. destruct (fval (ps_of ps)) as [kids|] eqn:Ek; [|discriminate E].
    destruct (finish classes c kids) as [o|] eqn:F; [|discriminate E]. injection E as <-.
    destruct (fval_at classes (ps_of ps) kids n (p_of u) Ek ltac:(now rewrite ps_names)) as (w & Ew & Aw).
    { unfold L_JsonProps.ps_of. apply in_map_iff. exists (n, u). split; [reflexivity|exact Iu]. }
    assert (W : exists c' qs, w = JObj (TObj c' qs)).
    { pose proof (comes_back classes u w Ou Ew) as B. destruct u as [| | | |c' qs]; try discriminate Pu. destruct (B Pu) as [qs' ->]. now exists c', qs'. }
    destruct W as (c' & qs & ->).
    unfold finish in F. pose proof (fval_names classes _ _ Ek) as Kn. rewrite ps_names in Kn. destruct kids as [|[n0 v0] kids]; [discriminate F|].
    destruct (renew classes v0) as [v'|] eqn:R; [|discriminate F]. cbn [rbind] in F. destruct (args classes ((n0, v') :: kids)) as [kws|] eqn:Ar; [|discriminate F]. cbn [rbind] in F.
    assert (Nk : NoDup (map fst ((n0, v') :: kids))) by (change (NoDup (map fst ((n0, v0) :: kids))); now rewrite Kn).
    destruct (args_at classes _ _ n _ Ar Nk (kept_object n v0 kids v' n0 _ R Aw)) as (a & [= <-] & Aa).
    destruct (build_at classes c kws o n _ i F Ei Aa) as (rs & p & -> & Ip & En & Aq).
    destruct (IH u (TObj c' qs) v Ou Pu Ew V Pv) as (u' & Eu' & Vu'). exists u'. split; [exact Eu'|].
    cbn [value_at]. unfold has_params. rewrite Ei, Ci, Aq. exact Vu'.
Qed.
Lemma root_object ps t' n path u :
  orderly (TObj "suprb.suprb.SupRB" ps) = true -> parametrised (TObj "suprb.suprb.SupRB" ps) = true ->
  load_config classes (save_config classes (TObj "suprb.suprb.SupRB" ps)) = Ok t' ->
  String.prefix "logger" n = false -> value_at classes (TObj "suprb.suprb.SupRB" ps) (n :: path) = Some u -> parametrised u = true ->
  exists u', peval (p_of u) = Some (JObj u') /\ value_at classes t' (n :: path) = Some u'.
Proof.
  intros O P Ld Ln V Pv. pose proof (save_load classes _ _ O P) as S. rewrite Ld in S. destruct S as (kids & Ek & B).
  destruct (orderly_obj classes _ _ P O) as (i & Ei & Ci & D & Dec & Pl & N & C & A).
  cbn [value_at] in V. unfold has_params in V. rewrite Ei, Ci in V. destruct (assoc ps n) as [v|] eqn:Au; [|discriminate V]. pose proof (assoc_in _ _ _ Au) as Iu.
  assert (Ou : orderly v = true) by (rewrite Forall_forall in A; exact (A _ Iu)).
  assert (Pu : parametrised v = true) by (destruct path; [injection V as ->; exact Pv|exact (path_parametrised _ _ _ _ V)]).
  destruct (fval_at classes _ kids n (p_of v) Ek ltac:(rewrite ps_names; now apply unlogged_nodup)) as (w & Ew & Aw).
  { unfold L_JsonProps.ps_of. apply in_map_iff. exists (n, v). split; [reflexivity|now apply unlogged_in]. }
  assert (W : exists c' qs, w = JObj (TObj c' qs)).
  { pose proof (comes_back classes v w Ou Ew) as Bk. destruct v as [| | | |c' qs]; try discriminate Pu. destruct (Bk Pu) as [qs' ->]. now exists c', qs'. }
  destruct W as (c' & qs & ->).
  assert (Aa : assoc (map (fun kv => (fst kv, as_value (snd kv))) kids) n = Some (TObj c' qs)) by (rewrite assoc_map, Aw; reflexivity).
  destruct (build_at classes _ _ _ _ _ _ B Ei Aa) as (rs & p & -> & Ip & En & Aq).
  destruct (back_object path v (TObj c' qs) u Ou Pu Ew V Pv) as (u' & Eu' & Vu'). exists u'. split; [exact Eu'|].
  cbn [value_at]. unfold has_params. rewrite Ei, Ci, Aq. exact Vu'.
Qed.
(* ----- entries of the file ----- *)
Lemma assoc_skip {V} (l m : list (string * V)) k : ~ In k (map fst l) -> assoc (l ++ m) k = assoc m k.
Proof.
  induction l as [|[x v] l IH]; intros H; [reflexivity|]. cbn [app assoc]. destruct (String.eqb_spec x k) as [->|]; [exfalso; apply H; now left|].
  apply IH. intros C. apply H. now right.
Qed.
Lemma head_entry K p u : ctx K p -> fwf (K u) -> assoc (dict (K u)) (join p) = Some (head u).
Proof.
  intros H W. pose proof (ctx_plains K p u H W) as Pp. pose proof (ctx_nonempty K p H) as Np. pose proof (fent_plains (K u) W) as Fp. pose proof (fent_nonempty (K u)) as Fn.
  destruct (ctx_entries K p u H W) as (E1 & E2 & E & Lp). unfold dict. specialize (E u). rewrite E in *. rewrite !map_app. cbn [map named fst snd].
  rewrite assoc_skip.
  - rewrite assoc_skip; [unfold named at 1; cbn [assoc fst snd]; now rewrite String.eqb_refl|]. intros C. rewrite map_map in C. apply in_map_iff in C as (e & Ee & Ie).
    assert (Ie' : In e (E1 ++ map (ext p) (entries u) ++ (p, head u) :: E2)) by (apply in_or_app; right; apply in_or_app; now left).
    cbn [named fst] in Ee. apply join_inj in Ee; [|exact (Fp _ Ie')|exact Pp|exact (Fn _ Ie')|exact Np].
    apply in_map_iff in Ie as (e0 & <- & Ie0). cbn [ext fst] in Ee. 
    assert (X : fst e0 = []). { apply (f_equal (@length string)) in Ee. rewrite app_length in Ee. destruct (fst e0); [reflexivity|cbn in Ee; lia]. }
    destruct u as [v|c qs]; [destruct Ie0|]. rewrite entries_open in Ie0. exact (fent_nonempty _ _ Ie0 X).
  - intros C. rewrite map_map in C. apply in_map_iff in C as (e & Ee & Ie).
    assert (Ie' : In e (E1 ++ map (ext p) (entries u) ++ (p, head u) :: E2)) by (apply in_or_app; now left).
    cbn [named fst] in Ee. apply join_inj in Ee; [|exact (Fp _ Ie')|exact Pp|exact (Fn _ Ie')|exact Np].
    specialize (Lp e (in_or_app _ _ _ (or_introl Ie))). rewrite Ee in Lp. rewrite <- (app_nil_r p) in Lp at 2. rewrite lpre_app in Lp. discriminate Lp.
Qed.
Lemma path_context path : forall ps u n, Forall (fun nu => orderly (snd nu) = true) ps ->
  (exists v, In (n, v) ps /\ value_at classes v path = Some u) -> exists K, ctx K (n :: path) /\ ps_of ps = K (p_of u).
Proof.
  induction path as [|m path IH]; intros ps u n A (v & I & V).
  - cbn in V. injection V as ->. apply in_split in I as (l1 & l2 & ->). exists (fun u => ps_of l1 ++ (n, u) :: ps_of l2). split; [apply C_here|].
    unfold L_JsonProps.ps_of. now rewrite map_app.
  - pose proof (path_parametrised _ _ _ _ V) as Pv. apply in_split in I as (l1 & l2 & ->). apply Forall_elt in A. cbn [snd] in A.
    destruct v as [| | | |c qs]; try discriminate Pv. destruct (orderly_obj classes c qs Pv A) as (i & Ei & Ci & D & Dec & Pl & N & C & Aq).
    cbn [value_at] in V. unfold has_params in V. rewrite Ei, Ci in V. destruct (assoc qs m) as [w|] eqn:Aw; [|discriminate V].
    destruct (IH qs u m Aq) as (K & HK & EK); [exists w; split; [exact (assoc_in _ _ _ Aw)|exact V]|].
    exists (fun u => ps_of l1 ++ (n, Open c (K u)) :: ps_of l2). split; [now apply C_down|].
    unfold L_JsonProps.ps_of at 1. rewrite map_app. cbn [map fst snd]. now rewrite (p_of_obj classes c qs Pv), EK.
Qed.
Lemma entry_at ps n path u : orderly (TObj "suprb.suprb.SupRB" ps) = true -> parametrised (TObj "suprb.suprb.SupRB" ps) = true ->
  String.prefix "logger" n = false -> value_at classes (TObj "suprb.suprb.SupRB" ps) (n :: path) = Some u ->
  assoc (save_config classes (TObj "suprb.suprb.SupRB" ps)) (join (n :: path)) = Some (head (p_of u)).
Proof.
  intros O P Ln V. rewrite (save_dict classes _ _ O P). pose proof (saved_fwf classes _ _ O P) as W.
  destruct (orderly_obj classes _ _ P O) as (i & Ei & Ci & D & Dec & Pl & N & C & A).
  cbn [value_at] in V. unfold has_params in V. rewrite Ei, Ci in V. destruct (assoc ps n) as [v|] eqn:Au; [|discriminate V]. pose proof (assoc_in _ _ _ Au) as Iu.
  destruct (path_context path (unlogged ps) u n) as (K & HK & EK); [|exists v; split; [now apply unlogged_in|exact V]|].
  - apply Forall_forall. intros x Ix. rewrite Forall_forall in A. apply A. unfold unlogged in Ix. now apply filter_In in Ix as [Ix _].
  - rewrite EK in *. exact (head_entry K _ _ HK W).
Qed.
Lemma object_head c qs : orderly (TObj c qs) = true -> head (p_of (TObj c qs)) = JClass c.
Proof.
  intros O. destruct (parametrised (TObj c qs)) eqn:Pv; [now rewrite (p_of_obj classes c qs Pv)|].
  rewrite (p_of_leaf classes _ Pv). cbn [head]. exact (encode_leaf classes _ O Pv).
Qed.
Lemma orderly_below path : forall t u, orderly t = true -> value_at classes t path = Some u -> orderly u = true.
Proof.
  induction path as [|n path IH]; intros t u O V; [cbn in V; now injection V as <-|]. pose proof (path_parametrised _ _ _ _ V) as P. destruct t as [| | | |c qs]; try discriminate P.
  destruct (orderly_obj classes c qs P O) as (i & Ei & Ci & D & Dec & Pl & N & C & A). cbn [value_at] in V. unfold has_params in V. rewrite Ei, Ci in V.
  destruct (assoc qs n) as [w|] eqn:Aw; [|discriminate V]. apply (IH w); [|exact V]. rewrite Forall_forall in A. exact (A _ (assoc_in _ _ _ Aw)).
Qed.
(* a rebuilt object has the same parameters *)
Lemma build_names c kws t i : build classes c kws = Ok t -> classes c = Some i -> exists qs, t = TObj c qs /\ map fst qs = map pname (cparams i).
Proof.
  unfold build. intros B Ei. rewrite Ei in B. destruct (negb _) in B; [discriminate B|]. destruct (rmap _ (cparams i)) as [ps|] eqn:R; [|discriminate B]. cbn [rbind] in B.
  destruct (cguard i ps); [|discriminate B]. injection B as <-. exists ps. split; [reflexivity|]. clear - R. revert ps R. induction (cparams i) as [|p l IH]; intros ps R; cbn [rmap] in R; [injection R as <-; reflexivity|].
  destruct (match assoc kws (pname p) with Some v => Ok v | None => of_option TypeError (pdefault p) end) as [v|]; [|discriminate R]. cbn [rbind] in R.
  destruct (rmap _ l) as [qs|] eqn:Rq; [|discriminate R]. cbn [rbind] in R. injection R as <-. cbn [map fst]. f_equal. now apply IH.
Qed.
Lemma names_eqb l m : M_Objects.list_eqb String.eqb l m = true -> l = m.
Proof.
  revert m. induction l as [|x l IH]; intros [|y m] H; try discriminate H; [reflexivity|]. cbn in H. apply andb_prop in H as [A B]. apply String.eqb_eq in A as ->. f_equal. now apply IH.
Qed.
Lemma rebuilt_names c ps t' : orderly (TObj c ps) = true -> parametrised (TObj c ps) = true -> peval (p_of (TObj c ps)) = Some (JObj t') ->
  exists qs, t' = TObj c qs /\ map fst qs = map fst ps.
Proof.
  intros O P E. destruct (orderly_obj classes c ps P O) as (i & Ei & Ci & D & Dec & Pl & N & C & A).
  rewrite (p_of_obj classes c ps P), peval_open in E. destruct (fval (ps_of ps)) as [kids|] eqn:Ek; [|discriminate E].
  destruct (finish classes c kids) as [o|] eqn:F; [|discriminate E]. injection E as <-. unfold finish in F. destruct kids as [|[n0 v0] kids]; [discriminate F|].
  destruct (renew classes v0) as [v'|]; [|discriminate F]. cbn [rbind] in F. destruct (args classes ((n0, v') :: kids)) as [kws|]; [|discriminate F]. cbn [rbind] in F.
  destruct (build_names _ _ _ _ F Ei) as (qs & -> & Nq). exists qs. split; [reflexivity|]. rewrite Nq. unfold as_declared in Dec. apply andb_prop in Dec as [Dec _]. symmetry. now apply names_eqb.
Qed.
End Classes.

(* ----- the mixing model that comes back ----- *)
Lemma attribute_obj c ps n u : attribute (TObj c ps) n = Ok u -> assoc ps n = Some u.
Proof. cbn [attribute]. destruct (assoc ps n); cbn [of_option]; congruence. Qed.
Lemma weight_plain w q : weight_of w = Ok q -> exists p, w = TPrim p /\ (encode w = JPrim p).
Proof. destruct w as [[b|z|[x| | |]|s]| | | |]; try discriminate; intros _; eexists; split; reflexivity. Qed.
Lemma experience_class e ec : experience_of e = Ok ec -> exists c ps, e = TObj c ps /\
  ((c = "suprb.solution.mixing_model.ExperienceCalculation" /\ unbound ec = ExpAsIs) \/
   (c = "suprb.solution.mixing_model.CapExperience" /\ unbound ec = CapExperience None None) \/
   (c = "suprb.solution.mixing_model.CapExperienceWithDimensionality" /\ unbound ec = CapExperienceWithDimensionality None None)).
Proof.
  destruct e as [| | | |c ps]; try discriminate. intros H. exists c, ps. split; [reflexivity|]. cbn [experience_of] in H.
  destruct (attribute _ "lower_bound") as [l|]; [|discriminate H]. cbn [rbind] in H. destruct (bound_of true l) as [l'|]; [|discriminate H]. cbn [rbind] in H.
  destruct (attribute _ "upper_bound") as [u|]; [|discriminate H]. cbn [rbind] in H. destruct (bound_of false u) as [u'|]; [|discriminate H]. cbn [rbind] in H.
  repeat match type of H with context [String.eqb ?a ?b] => destruct (String.eqb_spec a b) end; try discriminate H; injection H as <-; auto.
Qed.
Lemma filter_class f fc : filter_of f = Ok fc -> exists c ps, f = TObj c ps /\
  In c ["suprb.solution.mixing_model.FilterSubpopulation"; "suprb.solution.mixing_model.NBestFitness"; "suprb.solution.mixing_model.NRandom"; "suprb.solution.mixing_model.RouletteWheel"].
Proof.
  destruct f as [| | | |c ps]; try discriminate. intros H. exists c, ps. split; [reflexivity|]. cbn [filter_of] in H.
  destruct (attribute _ "rule_amount") as [l|]; [|discriminate H]. cbn [rbind] in H. destruct (amount_of l) as [l'|]; [|discriminate H]. cbn [rbind] in H.
  repeat match type of H with context [String.eqb ?a ?b] => destruct (String.eqb_spec a b) end; try discriminate H; subst; cbn; auto.
Qed.
Lemma mixing_back mt mx u' : mixing_of mt = Ok mx -> orderly library mt = true -> peval library (p_of library mt) = Some (JObj u') ->
  mixing_of u' = Ok (mkMixing KeepAll (unbound (mexp mx)) (mweight mx)).
Proof.
  intros M O E. destruct mt as [| | | |c ps]; try discriminate M. cbn [mixing_of] in M.
  destruct (String.eqb_spec c "suprb.solution.mixing_model.ErrorExperienceHeuristic") as [->|]; [|discriminate M].
  destruct (attribute (TObj _ ps) "experience_calculation") as [e|] eqn:Ae; [|discriminate M]. cbn [rbind] in M. destruct (experience_of e) as [ec|] eqn:Ee; [|discriminate M]. cbn [rbind] in M.
  destruct (attribute (TObj _ ps) "experience_weight") as [w|] eqn:Aw; [|discriminate M]. cbn [rbind] in M. destruct (weight_of w) as [wq|] eqn:Ew; [|discriminate M]. cbn [rbind] in M.
  destruct (attribute (TObj _ ps) "filter_subpopulation") as [f|] eqn:Af; [|discriminate M]. cbn [rbind] in M. destruct (filter_of f) as [fc|] eqn:Ef; [|discriminate M]. cbn [rbind] in M.
  injection M as <-. cbn [mexp mweight]. apply attribute_obj in Ae, Aw, Af.
  assert (P : parametrised library (TObj "suprb.solution.mixing_model.ErrorExperienceHeuristic" ps) = true) by (destruct ps; [discriminate Ae|reflexivity]).
  destruct (orderly_obj library _ _ P O) as (i & Ei & Ci & D & Dec & Pl & N & C & A).
  unfold as_declared in Dec. apply andb_prop in Dec as [Dn _]. apply names_eqb in Dn. vm_compute in Ei. injection Ei as <-. cbn [cparams map pname] in Dn.
  destruct ps as [|[n1 x1] [|[n2 x2] [|[n3 x3] [|? ?]]]]; try discriminate Dn. injection Dn as -> -> ->.
  vm_compute in Ae, Aw, Af. injection Ae as ->. injection Aw as ->. injection Af as ->.
  destruct (experience_class _ _ Ee) as (c1 & ps1 & -> & Hc1). destruct (weight_plain _ _ Ew) as (p & -> & Ep). destruct (filter_class _ _ Ef) as (c2 & ps2 & -> & Hc2).
  rewrite (p_of_obj library _ _ P), peval_open in E. unfold L_JsonProps.ps_of in E. cbn [map fst snd] in E.
  assert (E1 : p_of library (TObj c1 ps1) = Done (JClass c1)) by (destruct Hc1 as [[-> _]|[[-> _]|[-> _]]]; reflexivity).
  assert (E2 : p_of library (TObj c2 ps2) = Done (JClass c2)) by (cbn [In] in Hc2; decompose [or] Hc2; subst; try reflexivity; contradiction).
  assert (E3 : p_of library (TPrim p) = Done (JPrim p)) by (cbn [L_JsonProps.p_of]; now rewrite Ep).
  rewrite E1, E2, E3 in E. clear E1 E2 E3 O A P Ep Ee Ef Pl N C D Ci. cbn [In] in Hc2.
  assert (R : mixing_of u' = (let? w := weight_of (TPrim p) in Ok (mkMixing KeepAll (unbound ec) w))).
  { destruct Hc1 as [[-> ->]|[[-> ->]|[-> ->]]]; (destruct Hc2 as [<-|[<-|[<-|[<-|[]]]]]); vm_compute in E; injection E as <-; reflexivity. }
  rewrite R, Ew. reflexivity.
Qed.
