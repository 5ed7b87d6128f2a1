(* Saved models: rules, mixing model, predictions. *)
From Coq Require Import String Ascii.
From Verif Require Import PyNum PyList PyMon PyRng M_Matching M_Rule M_RuleGen M_Mixing M_Fit M_Json M_Classes M_Saved S_Objects S_Json S_Saved L_List L_Text L_Forest L_Fold L_Json L_JsonProps L_Params L_FitClean L_Saved.
From Verif Require M_Objects.
Local Open Scope string_scope.
Local Open Scope list_scope.

Section Saved.
Variable L : learner.
Variable coefs : Mdl L -> option (list Q * Q).
Variable linear : string -> list Q -> Q -> Mdl L.
Variable absent : num * list Q * list bool.
Variables (D : discovery L) (C : composition L) (G : logger L).
Notation library := M_Classes.library.

Lemma dump_inv conf (e e' : est D C G) f : dump library coefs conf e = (Ok f, e') ->
  (exists r, cleanup e = (r, e')) /\ f_config f = save_config library conf /\ rmap (save_rule coefs) (pool e') = Ok (f_pool f) /\ f_pool f <> [] /\ measured e' = Ok (f_elitist f).
Proof.
  unfold dump. destruct (cleanup e) as [r e1] eqn:EC. intros H.
  assert (W : write library coefs conf (measured e1) (pool e1) = Ok f /\ e1 = e') by (destruct r as [u|[]]; try discriminate H; now injection H as H <-).
  clear H. destruct W as [W ->]. split; [now exists r|]. unfold write in W. destruct (measured e') as [m|]; [|discriminate W]. cbn [rbind] in W.
  destruct (rmap _ (pool e')) as [[|s ss]|] eqn:R; try discriminate W. cbn [rbind] in W. injection W as <-. repeat split; auto. discriminate.
Qed.
Lemma dumped_pool conf (e e' : est D C G) f b : dump library coefs conf e = (Ok f, e') -> M_Fit.elitist e = Some (Learned b) ->
  length (ebits b) = length (epool b) /\ pool e' = selected b.
Proof.
  intros H E. unfold dump in H. destruct (cleanup e) as [r e1] eqn:EC. unfold cleanup, bind, get, lift, assign in EC. rewrite E in EC. cbn [of_option] in EC.
  unfold subpopulation in EC. destruct (Nat.eqb_spec (length (ebits b)) (length (epool b))) as [El|]; cbn [assert_ rbind] in EC.
  2: { injection EC as <- <-. discriminate H. }
  split; [exact El|]. assert (P1 : pool e1 = selected b).
  { destruct (the_disc _) as [d|]; cbn in EC; [|injection EC as _ <-; reflexivity]. destruct (the_compo _) as [c|]; injection EC as _ <-; reflexivity. }
  destruct r as [u|[]]; try discriminate H; injection H as _ <-; exact P1.
Qed.
Lemma save_rule_inv r s : save_rule coefs r = Ok s -> exists a m qi, att r = Some a /\ rmodel r = Some m /\ coefs m = Some qi /\
  s = mkSaved (error a) (experience a) (bnd (cond r)) (M_Rule.is_fitted a) (fst qi) (snd qi).
Proof.
  unfold save_rule. destruct (att r) as [a|]; [|discriminate]. destruct (rmodel r) as [m|]; [|discriminate]. cbn [of_option rbind]. destruct (coefs m) as [[q i]|] eqn:E; [|discriminate].
  intros [= <-]. exists a, m, (q, i). auto.
Qed.
Lemma dotted c t : matching_class c = Ok t -> get_class (JClass c) = Ok c.
Proof. unfold matching_class. repeat match goal with |- context [String.eqb ?a ?b] => destruct (String.eqb_spec a b) as [->|] end; try discriminate; reflexivity. Qed.
Lemma class_dotted c qs : orderly library (TObj c qs) = true -> get_class (JClass c) = Ok c.
Proof. cbn [S_Json.orderly get_class]. intros H. apply andb_prop in H as [H _]. apply andb_prop in H as [H _]. now rewrite H. Qed.
Definition shown_class (config : list (string * jv)) (t : mtype) : Prop := exists c, assoc config "matching_type" = Some (JClass c) /\ matching_class c = Ok t.
Lemma load_rule_inv config t s r : shown_class config t -> load_rule library linear absent config s = Ok r ->
  exists c, r = mkRule (mkMatching t (s_bounds s)) (Some (linear c (s_coef s) (s_intercept s)))
        (Some (mkAtts (s_fitted s) (s_error s) (fst (fst absent)) (s_experience s) (snd (fst absent)) (snd absent))).
Proof.
  intros (c & A & M) H. unfold load_rule in H. rewrite A in H. cbn [of_option rbind] in H. rewrite (dotted _ _ M) in H. cbn [rbind] in H. rewrite M in H. cbn [rbind] in H.
  destruct (of_option KeyError (assoc config "rule_discovery__init__model")) as [v|]; [|discriminate H]. cbn [rbind] in H. destruct (get_class v) as [mc|]; [|discriminate H]. cbn [rbind] in H.
  destruct (build library mc []); [|discriminate H]. cbn [rbind] in H.
  destruct (of_option KeyError (assoc config "rule_discovery__init__fitness")) as [w|]; [|discriminate H]. cbn [rbind] in H. destruct (get_class w) as [fc|]; [|discriminate H]. cbn [rbind] in H.
  destruct (of_option ImportError (library fc)); [|discriminate H]. cbn [rbind] in H. injection H as <-. now exists mc.
Qed.
Lemma rule_round t r s r' config : (forall c m qi, coefs m = Some qi -> coefs (linear c (fst qi) (snd qi)) = Some qi) -> shown_class config t -> mt (cond r) = t ->
  save_rule coefs r = Ok s -> load_rule library linear absent config s = Ok r' -> same_rule coefs r r'.
Proof.
  intros Law Sh T S Ld. destruct (save_rule_inv _ _ S) as (a & m & [q i] & Ha & Hm & Hc & ->). destruct (load_rule_inv _ _ _ _ Sh Ld) as (c & ->). cbn [s_bounds s_coef s_intercept s_fitted s_error s_experience fst snd] in *.
  split; [cbn; subst t; now destruct (cond r)|]. split.
  - exists a. eexists. split; [exact Ha|]. split; [reflexivity|]. auto.
  - exists m. eexists. exists (q, i). split; [exact Hm|]. split; [reflexivity|]. split; [exact Hc|exact (Law c m (q, i) Hc)].
Qed.
Lemma configured_shown conf t mx : configured library conf t mx -> shown_class (save_config library conf) t.
Proof.
  intros (ps & mc & qs & u & mdl & rs & o & fc & gs & fit & -> & O & P & V & M & _). exists mc. split; [|exact M].
  pose proof (entry_at library ps "matching_type" [] _ O P eq_refl V) as E. cbn [join] in E. rewrite E, object_head; [reflexivity|]. exact (orderly_below library _ _ _ O V).
Qed.
Lemma load_inv f l : load library linear absent f = Ok l -> exists c i m fi, load_config library (f_config f) = Ok (l_conf l) /\ rmap (load_rule library linear absent (f_config f)) (f_pool f) = Ok (l_pool l) /\
  attribute (l_conf l) "solution_composition" = Ok c /\ attribute c "init" = Ok i /\ attribute i "mixing" = Ok m /\ attribute i "fitness" = Ok fi /\ mixing_of m = Ok (l_mixing l).
Proof.
  unfold load. destruct (load_config library (f_config f)) as [t|]; [|discriminate]. cbn [rbind]. destruct (rmap _ (f_pool f)) as [rs|]; [|discriminate]. cbn [rbind].
  destruct (attribute t _) as [c|] eqn:E1; [|discriminate]. cbn [rbind]. destruct (attribute c _) as [i|] eqn:E2; [|discriminate]. cbn [rbind].
  destruct (attribute i "mixing") as [m|] eqn:E3; [|discriminate]. cbn [rbind]. destruct (attribute i "fitness") as [fi|] eqn:E4; [|discriminate]. cbn [rbind].
  destruct (mixing_of m) as [mx|] eqn:E5; [|discriminate]. intros [= <-]. exists c, i, m, fi. cbn. auto 10.
Qed.
Lemma Forall2_compose {A B E} (R : A -> B -> Prop) (S : B -> E -> Prop) (T : A -> E -> Prop) (Q : A -> Prop) l : (forall a b c, Q a -> R a b -> S b c -> T a c) ->
  forall m n, Forall Q l -> Forall2 R l m -> Forall2 S m n -> Forall2 T l n.
Proof.
  intros H. induction l as [|a l IH]; intros m n FQ FR FS; inversion FR; subst; inversion FS; subst; constructor; inversion FQ; subst; eauto.
Qed.
Lemma rules_back conf t mx (e e' : est D C G) f l b :
  (forall c m qi, coefs m = Some qi -> coefs (linear c (fst qi) (snd qi)) = Some qi) -> configured library conf t mx -> M_Fit.elitist e = Some (Learned b) -> Forall (fun r => mt (cond r) = t) (selected b) ->
  dump library coefs conf e = (Ok f, e') -> load library linear absent f = Ok l -> Forall2 (same_rule coefs) (selected b) (l_pool l).
Proof.
  intros Law Cf E Ty Du Lo. pose proof (configured_shown _ _ _ Cf) as Sh. destruct (dump_inv _ _ _ _ Du) as (_ & Fc & Fp & _). destruct (dumped_pool _ _ _ _ _ Du E) as [_ Pe].
  destruct (load_inv _ _ Lo) as (c & i & m & fi & _ & Lp & _). rewrite Fc in Lp. rewrite Pe in Fp. apply rmap_inv in Fp, Lp.
  eapply Forall2_compose; [|exact Ty|exact Fp|exact Lp]. cbn. intros r s r' T S Ld. exact (rule_round t r s r' _ Law Sh T S Ld).
Qed.
Lemma mixing_parametrised u mx : mixing_of u = Ok mx -> parametrised library u = true.
Proof.
  destruct u as [| | | |c ps]; try discriminate. cbn [mixing_of]. destruct (String.eqb_spec c "suprb.solution.mixing_model.ErrorExperienceHeuristic") as [->|]; [|discriminate].
  destruct ps; [discriminate|]. intros _. reflexivity.
Qed.
Lemma value_attribute t n path u : value_at library t (n :: path) = Some u -> exists v, attribute t n = Ok v /\ value_at library v path = Some u.
Proof.
  destruct t as [| | | |c ps]; try discriminate. cbn [value_at attribute]. destruct (has_params library c); [|discriminate]. destruct (assoc ps n) as [v|]; [|discriminate]. intros H. now exists v.
Qed.
Lemma mixing_loaded conf t mx (e e' : est D C G) f l : configured library conf t mx -> dump library coefs conf e = (Ok f, e') -> load library linear absent f = Ok l ->
  l_mixing l = mkMixing KeepAll (unbound (mexp mx)) (mweight mx).
Proof.
  intros (ps & mc & qs & u & mdl & rs & o & fc & gs & fit & -> & O & P & _ & _ & V & M & _) Du Lo. destruct (dump_inv _ _ _ _ Du) as (_ & Fc & _).
  destruct (load_inv _ _ Lo) as (c & i & m & fi & Lc & _ & A1 & A2 & A3 & _ & Mm). rewrite Fc in Lc.
  destruct (root_object library ps _ "solution_composition" ["init"; "mixing"] u O P Lc eq_refl V (mixing_parametrised _ _ M)) as (u' & Eu & Vu).
  pose proof (mixing_back u mx u' M (orderly_below library _ _ _ O V) Eu) as R.
  destruct (value_attribute _ _ _ _ Vu) as (v1 & B1 & Vu1). destruct (value_attribute _ _ _ _ Vu1) as (v2 & B2 & Vu2). destruct (value_attribute _ _ _ _ Vu2) as (v3 & B3 & Vu3).
  cbn in Vu3. injection Vu3 as ->. assert (c = v1) by congruence; subst v1. assert (i = v2) by congruence; subst v2. assert (m = u') by congruence; subst u'. congruence.
Qed.
Lemma value_split p q : forall t u, value_at library t (p ++ q) = Some u -> exists v, value_at library t p = Some v /\ value_at library v q = Some u.
Proof.
  induction p as [|n p IH]; intros t u H; [now exists t|]. destruct t as [| | | |c ps]; try discriminate H. cbn [app value_at] in *. destruct (has_params library c); [|discriminate H].
  destruct (assoc ps n) as [v|]; [|discriminate H]. exact (IH _ _ H).
Qed.
(* ----- loading succeeds ----- *)
Lemma rmap_total {A B} (g : A -> res B) l : (forall a, exists b, g a = Ok b) -> exists bs, rmap g l = Ok bs.
Proof. intros H. induction l as [|a l [bs IH]]; [now exists []|]. destruct (H a) as [b Eb]. exists (b :: bs). cbn [rmap]. rewrite Eb. cbn [rbind]. now rewrite IH. Qed.
Lemma assoc_some {V} (l : list (string * V)) n : In n (map fst l) -> exists v, assoc l n = Some v.
Proof.
  induction l as [|[m v] l IH]; [contradiction|]. cbn [map fst assoc]. destruct (String.eqb_spec m n); intros H; [eauto|]. destruct H as [->|H]; [congruence|]. now apply IH.
Qed.
Lemma loads conf t mx conf' (e e' : est D C G) f : configured library conf t mx -> load_config library (save_config library conf) = Ok conf' -> dump library coefs conf e = (Ok f, e') ->
  exists l, load library linear absent f = Ok l.
Proof.
  intros Cf Lc Du. pose proof (configured_shown _ _ _ Cf) as (c & Ac & Mc). destruct Cf as (ps & mc & qs & u & mdl & rs & o & fc & gs & fit & -> & O & P & _ & _ & V & M & Vf & Vm & Bm & Vr).
  destruct (dump_inv _ _ _ _ Du) as (_ & Fc & _). unfold load. rewrite Fc, Lc. cbn [rbind].
  pose proof (entry_at library ps "rule_discovery" ["init"; "model"] _ O P eq_refl Vm) as Em. rewrite object_head in Em by exact (orderly_below library _ _ _ O Vm).
  pose proof (entry_at library ps "rule_discovery" ["init"; "fitness"] _ O P eq_refl Vr) as Er. pose proof (orderly_below library _ _ _ O Vr) as Or. rewrite object_head in Er by exact Or.
  assert (Cl : exists ci, library fc = Some ci).
  { cbn [S_Json.orderly] in Or. destruct (library fc); [eauto|]. apply andb_prop in Or as [_ Or]. discriminate Or. }
  destruct Cl as [ci Cl].
  destruct (rmap_total (load_rule library linear absent (save_config library (TObj "suprb.suprb.SupRB" ps))) (f_pool f)) as [lrs Rl].
  { intros s. unfold load_rule. rewrite Ac. cbn [of_option rbind]. rewrite (dotted _ _ Mc). cbn [rbind]. rewrite Mc. cbn [rbind]. change (join ["rule_discovery"; "init"; "model"]) with "rule_discovery__init__model" in Em. rewrite Em. cbn [of_option rbind]. rewrite (class_dotted mdl rs) by exact (orderly_below library _ _ _ O Vm). cbn [rbind]. rewrite Bm. cbn [rbind].
    change (join ["rule_discovery"; "init"; "fitness"]) with "rule_discovery__init__fitness" in Er. rewrite Er. cbn [of_option rbind]. rewrite (class_dotted fc gs) by exact Or. cbn [rbind]. rewrite Cl. cbn [of_option rbind]. eauto. }
  rewrite Rl. cbn [rbind].
  destruct (root_object library ps _ "solution_composition" ["init"; "mixing"] u O P Lc eq_refl V (mixing_parametrised _ _ M)) as (u' & Eu & Vu).
  pose proof (mixing_back u mx u' M (orderly_below library _ _ _ O V) Eu) as R.
  destruct (value_attribute _ _ _ _ Vu) as (v1 & B1 & Vu1). destruct (value_attribute _ _ _ _ Vu1) as (v2 & B2 & Vu2). destruct (value_attribute _ _ _ _ Vu2) as (v3 & B3 & Vu3). cbn in Vu3. injection Vu3 as ->.
  rewrite B1. cbn [rbind]. rewrite B2. cbn [rbind]. rewrite B3. cbn [rbind].
  assert (Fi : exists fi, attribute v2 "fitness" = Ok fi).
  { destruct (value_split ["solution_composition"; "init"] ["fitness"] _ _ Vf) as (w2 & Vi & Wf2). pose proof (path_parametrised library _ _ _ _ Wf2) as Pw.
    destruct (root_object library ps _ "solution_composition" ["init"] w2 O P Lc eq_refl Vi Pw) as (w' & Ew & Vw).
    destruct (value_attribute _ _ _ _ Vw) as (x1 & D1 & Vw1). destruct (value_attribute _ _ _ _ Vw1) as (x2 & D2 & Vw2). cbn in Vw2. injection Vw2 as ->.
    assert (x1 = v1) by congruence; subst x1. assert (w' = v2) by congruence; subst v2.
    destruct w2 as [| | | |c2 ps2]; try discriminate Pw. destruct (rebuilt_names library c2 ps2 w' (orderly_below library _ _ _ O Vi) Pw Ew) as (qs' & -> & Nq).
    destruct (value_attribute _ _ _ _ Wf2) as (x & Ax & _). cbn [attribute] in Ax |- *. destruct (assoc ps2 "fitness") as [y|] eqn:Ay; [|discriminate Ax].
    destruct (assoc_some qs' "fitness") as [z Az]; [|rewrite Az; cbn [of_option]; eauto]. rewrite Nq. change "fitness" with (fst ("fitness", y)). apply in_map. exact (assoc_in _ _ _ Ay). }
  destruct Fi as [fi Fi]. rewrite Fi. cbn [rbind]. rewrite R. cbn [rbind]. eauto.
Qed.
(* ----- predictions ----- *)
Lemma same_local X r r' : linear_models coefs linear -> same_rule coefs r r' -> local_pred L X false r' = local_pred L X false r.
Proof.
  intros [_ Lp] (Ec & _ & (m & m' & qi & Hm & Hm' & Hq & Hq')). unfold local_pred. rewrite Ec. destruct (match_call (cond r) X) as [ms|]; [|reflexivity]. cbn [rbind].
  destruct (existsb _ ms); [|reflexivity]. unfold rule_predict. rewrite Hm, Hm'. cbn [rbind]. now rewrite (map_ext (mpred L m') (mpred L m)) by (intros x; exact (Lp m' m qi x Hq' Hq)).
Qed.
Lemma same_tau mx mx' dim r r' : same_rule coefs r r' -> mexp mx' = mexp mx -> mweight mx' = mweight mx -> tau L mx' dim r' = tau L mx dim r.
Proof.
  intros (_ & (a & a' & Ha & Ha' & He & Hx & _) & _) Me Mw. unfold tau, get_att. rewrite Ha, Ha'. cbn [of_option rbind]. now rewrite He, Hx, Me, Mw.
Qed.
Lemma rmap_two {A B} (g : A -> res B) (R : A -> A -> Prop) : (forall a a', R a a' -> g a' = g a) -> forall l l', Forall2 R l l' -> rmap g l' = rmap g l.
Proof. intros H l l' F. induction F as [|a a' l l' Ra F IH]; [reflexivity|]. cbn [rmap]. now rewrite (H _ _ Ra), IH. Qed.
Lemma rmap_two' {A B} (g g' : A -> res B) (R : A -> A -> Prop) : (forall a a', R a a' -> g' a' = g a) -> forall l l', Forall2 R l l' -> rmap g' l' = rmap g l.
Proof. intros H l l' F. induction F as [|a a' l l' Ra F IH]; [reflexivity|]. cbn [rmap]. now rewrite (H _ _ Ra), IH. Qed.
Lemma same_mix mx mx' X rs rs' : linear_models coefs linear -> Forall2 (same_rule coefs) rs rs' -> mexp mx' = mexp mx -> mweight mx' = mweight mx -> mix L mx' X rs' false = mix L mx X rs false.
Proof.
  intros Lw F Me Mw. unfold mix. rewrite (rmap_two' _ (local_pred L X false) (same_rule coefs) (fun a a' H => same_local X a a' Lw H) _ _ F).
  now rewrite (rmap_two' (tau L mx (row_len X)) (tau L mx' (row_len X)) (same_rule coefs) (fun a a' H => same_tau mx mx' _ a a' H Me Mw) _ _ F).
Qed.
Lemma same_answers conf t (e e' : est D C G) f l b X g :
  linear_models coefs linear -> configured library conf t (emix b) -> M_Fit.elitist e = Some (Learned b) -> Forall (fun r => mt (cond r) = t) (selected b) ->
  mfilter (emix b) = KeepAll -> unbound (mexp (emix b)) = mexp (emix b) -> M_Fit.is_fitted e = true -> is_error e = false ->
  dump library coefs conf e = (Ok f, e') -> load library linear absent f = Ok l -> predict_loaded l X g = predict e X g.
Proof.
  intros Lw Cf E Ty Fk Ub Fi Er Du Lo. pose proof (rules_back _ _ _ _ _ _ _ _ (proj1 Lw) Cf E Ty Du Lo) as F. pose proof (mixing_loaded _ _ _ _ _ _ _ Cf Du Lo) as Mx.
  destruct (dumped_pool _ _ _ _ _ Du E) as [El Pe]. destruct (dump_inv _ _ _ _ Du) as (_ & _ & Fp & Np & _). rewrite Pe in Fp.
  unfold predict_loaded, predict. rewrite Fi, Er, E. cbn [negb]. unfold bind. destruct (lift (check_X X) g) as [[u|x] g']; [|reflexivity].
  unfold sol_predict, subpopulation. rewrite repeat_length, Nat.eqb_refl, El, Nat.eqb_refl. cbn [assert_ rbind]. rewrite compress_ones. fold (selected b).
  unfold mixing_call. rewrite Mx, Fk. cbn [mfilter]. destruct (selected b) as [|r rs] eqn:Es; [cbn in Fp; congruence|].
  inversion F as [|? r' ? rs' Hr Hrs Ea Eb]; subst. cbn [apply_filter]. f_equal. apply same_mix; auto.
Qed.
Lemma dump_predicts conf (e e' : est D C G) r X g : dump library coefs conf e = (r, e') -> predict e' X g = predict e X g.
Proof.
  unfold dump. destruct (cleanup e) as [r0 e1] eqn:EC. intros H. assert (e1 = e') by (destruct r0 as [u|[]]; now injection H as _ <-). subst e1. eapply cleanup_predicts; exact EC.
Qed.
(* a loaded estimator cannot be saved *)
Lemma saved_once l : dump_loaded library coefs l = Raise AttributeError.
Proof. reflexivity. Qed.
End Saved.
