(* Saved models: witnesses. *)
From Coq Require Import String Ascii.
From Verif Require Import PyNum PyList PyMon PyRng M_Matching M_Rule M_RuleGen M_Mixing M_Fit M_Json M_Classes M_Saved S_Fit S_Json S_Saved L_List L_Rng L_GenomeProps L_RuleProps L_DiscoveryEx L_FitEx L_JsonEx L_Saved L_SavedProps.
Local Open Scope string_scope.
Local Open Scope list_scope.

(* models that are constants *)
Definition constant (m : Mdl ML) : option (list Q * Q) := Some ([], m).
Definition set_constant (c : string) (q : list Q) (i : Q) : Mdl ML := i.
Definition nothing : num * list Q * list bool := (NaN, [], []).
Lemma constants_linear : linear_models constant set_constant.
Proof. split; [intros c m qi [= <-]; reflexivity|]. intros m m' qi x [= <-] [= <-]. reflexivity. Qed.

(* discovery finds two rules, composition selects both *)
Definition finds2 : discovery ML := scripted_d (fun _ => Ok [on_data dx dyy 0 1; on_data dx dyy 0 2]).
Definition mixes (mx : mixing) : composition ML :=
  mkComposition (nat * option solution) (Ok (0%nat, None))
    (fun _ _ _ pool _ c => (Ok tt, (S (fst c), Some (mkSolution (repeat true (length pool)) mx (mkSatts 0 (length pool) (length pool) (Fin 1))))))
    (fun c => Ok (snd c)) (fun _ => Ok []).
Definition empty_handed : discovery ML := scripted_d (fun _ => Ok []).
Definition start (D : discovery ML) mx : est D (mixes mx) silent := unfitted D (mixes mx) silent.
Definition fitted D mx : est D (mixes mx) silent := from (par 1 0 1 (IntSeed 7) (-1) 0) (start D mx).
Definition usual_mix : mixing := mkMixing KeepAll ExpAsIs 1.
Lemma fit2 mx : fst (fit (par 1 0 1 (IntSeed 7) (-1) 0) 0 false dx dyy (start finds2 mx)) = Ok tt.
Proof. vm_compute. reflexivity. Qed.
Lemma is_fitted2 mx : M_Fit.is_fitted (fitted finds2 mx) = true /\ is_error (fitted finds2 mx) = false.
Proof. split; vm_compute; reflexivity. Qed.
Definition elite2 mx : elite ML := mkElite [true; true] [on_data dx dyy 0 1; on_data dx dyy 0 2] mx (mkSatts 0 2 2 (Fin 1)).
Lemma elite2_is mx : M_Fit.elitist (fitted finds2 mx) = Some (Learned (elite2 mx)).
Proof. vm_compute. reflexivity. Qed.
Lemma ordered2 mx : Forall (fun r : rule ML => mt (cond r) = OrderedBound) (selected (elite2 mx)).
Proof. repeat constructor. Qed.
(* a configuration with this mixing model *)
Definition with_mixing (mixing : tree) : tree := suprb TNone (ordered_bound (TArr [])) (int 42) usual_es (ga (random_init (complexity_wu (3 # 10)) mixing)).
Lemma with_mixing_configured mixing mx : orderly library (with_mixing mixing) = true -> mixing_of mixing = Ok mx -> configured library (with_mixing mixing) OrderedBound mx.
Proof.
  intros O M. unfold configured, with_mixing, suprb in *. 
  exists (params TNone (ordered_bound (TArr [])) (int 42) usual_es (ga (random_init (complexity_wu (3 # 10)) mixing))), "suprb.rule.matching.OrderedBound", [("bounds", TArr [])], mixing.
  eexists. eexists. eexists. eexists. eexists. exists (complexity_wu (3 # 10)). split; [reflexivity|]. split; [exact O|]. split; [vm_compute; reflexivity|]. split; [vm_compute; reflexivity|]. split; [reflexivity|]. split; [vm_compute; reflexivity|].
  split; [exact M|]. split; [vm_compute; reflexivity|]. split; [vm_compute; reflexivity|]. split; [vm_compute; reflexivity|]. vm_compute; reflexivity.
Qed.
Definition usual_mixing : tree := heuristic as_is (int 1) keep_all.
Lemma tested_configured : configured library tested OrderedBound usual_mix.
Proof. exact (with_mixing_configured usual_mixing usual_mix tested_orderly eq_refl). Qed.
(* an estimator saved and loaded *)
Definition shows (o : res (list Q)) (q : Q) : bool := match o with Ok [p] => qeq p q | _ => false end.
Lemma shows_ok o q : shows o q = true -> exists p, o = Ok [p] /\ p == q.
Proof. destruct o as [[|p [|? ?]]|]; try discriminate. cbn. intros H. exists p. split; [reflexivity|]. now apply Qeq_bool_iff. Qed.
Definition at0 : matrix := [[0]].
Lemma saved_loaded conf mx q :
  (match fst (dump library constant conf (fitted finds2 mx)) with
   | Ok f => match load library set_constant nothing f with Ok l => shows (fst (predict_loaded l at0 (scripted []))) q | _ => false end | _ => false end) = true ->
  exists f e' l p, dump library constant conf (fitted finds2 mx) = (Ok f, e') /\ load library set_constant nothing f = Ok l /\ fst (predict_loaded l at0 (scripted [])) = Ok [p] /\ p == q.
Proof.
  destruct (dump library constant conf (fitted finds2 mx)) as [[f|x] e'] eqn:E; cbn [fst]; [|discriminate]. destruct (load library set_constant nothing f) as [l|] eqn:Ld; [|discriminate].
  intros H. apply shows_ok in H as (p & Hp & Hq). exists f, e', l, p. exact (conj eq_refl (conj Ld (conj Hp Hq))).
Qed.
Lemma saved_ex : exists f e' l, dump library constant tested (fitted finds2 usual_mix) = (Ok f, e') /\ load library set_constant nothing f = Ok l.
Proof. destruct (saved_loaded tested usual_mix (36 # 640027)) as (f & e' & l & p & Du & Lo & _); [vm_compute; reflexivity|]. exists f, e', l. exact (conj Du Lo). Qed.
(* only the best rule *)
Definition one_best : tree := heuristic as_is (int 1) (TObj "suprb.solution.mixing_model.NBestFitness" [("random_state", int 42); ("rule_amount", int 1)]).
Definition best_mix : mixing := mkMixing (NBestFitness 1) ExpAsIs 1.
Definition at_most_one : tree := heuristic (TObj "suprb.solution.mixing_model.CapExperience" [("lower_bound", TPrim (PFloat NInf)); ("upper_bound", TPrim (PFloat (Fin 1)))]) (int 1) keep_all.
Definition cap_mix : mixing := mkMixing KeepAll (CapExperience None (Some 1)) 1.
Lemma predicts mx q : shows (fst (predict (fitted finds2 mx) at0 (scripted []))) q = true -> exists p, fst (predict (fitted finds2 mx) at0 (scripted [])) = Ok [p] /\ p == q.
Proof. apply shows_ok. Qed.
Definition par7 := par 1 0 1 (IntSeed 7) (-1) 0.
Lemma fit2_ran mx : fit par7 0 false dx dyy (start finds2 mx) = (Ok tt, fitted finds2 mx).
Proof. exact (ended _ _ (fit2 mx)). Qed.
Lemma changed mixing mx q1 q2 : orderly library (with_mixing mixing) = true -> mixing_of mixing = Ok mx ->
  shows (fst (predict (fitted finds2 mx) at0 (scripted []))) q1 = true ->
  (match fst (dump library constant (with_mixing mixing) (fitted finds2 mx)) with
   | Ok f => match load library set_constant nothing f with Ok l => shows (fst (predict_loaded l at0 (scripted []))) q2 | _ => false end | _ => false end) = true -> ~ q1 == q2 ->
  exists (D : discovery ML) (C : composition ML) p e conf b f e' l X g u v,
    fit p 0 false dx dyy (unfitted D C silent) = (Ok tt, e) /\ M_Fit.elitist e = Some (Learned b) /\ emix b = mx /\ configured library conf OrderedBound (emix b) /\
    linear_models constant set_constant /\ dump library constant conf e = (Ok f, e') /\ load library set_constant nothing f = Ok l /\
    fst (predict e X g) = Ok [u] /\ fst (predict_loaded l X g) = Ok [v] /\ ~ u == v.
Proof.
  intros O M P1 P2 N. apply shows_ok in P1 as (u & Pu & Qu). destruct (saved_loaded _ _ _ P2) as (f & e' & l & v & Du & Lo & Pv & Qv).
  exists finds2, (mixes mx), par7, (fitted finds2 mx), (with_mixing mixing), (elite2 mx), f, e', l, at0, (scripted []), u, v.
  split; [exact (fit2_ran mx)|]. split; [exact (elite2_is mx)|]. split; [reflexivity|]. split; [exact (with_mixing_configured _ _ O M)|]. split; [exact constants_linear|].
  split; [exact Du|]. split; [exact Lo|]. split; [exact Pu|]. split; [exact Pv|]. intros E. apply N. rewrite <- Qu, <- Qv. exact E.
Qed.
Lemma filter_changes : exists (D : discovery ML) (C : composition ML) p e conf b f e' l X g u v,
    fit p 0 false dx dyy (unfitted D C silent) = (Ok tt, e) /\ M_Fit.elitist e = Some (Learned b) /\ emix b = mkMixing (NBestFitness 1) ExpAsIs 1 /\ configured library conf OrderedBound (emix b) /\
    linear_models constant set_constant /\ dump library constant conf e = (Ok f, e') /\ load library set_constant nothing f = Ok l /\
    fst (predict e X g) = Ok [u] /\ fst (predict_loaded l X g) = Ok [v] /\ ~ u == v.
Proof. apply (changed one_best best_mix 0 (36 # 640027)); try (vm_compute; reflexivity). intros H. discriminate H. Qed.
Lemma cap_changes : exists (D : discovery ML) (C : composition ML) p e conf b f e' l X g u v,
    fit p 0 false dx dyy (unfitted D C silent) = (Ok tt, e) /\ M_Fit.elitist e = Some (Learned b) /\ emix b = mkMixing KeepAll (CapExperience None (Some 1)) 1 /\ configured library conf OrderedBound (emix b) /\
    linear_models constant set_constant /\ dump library constant conf e = (Ok f, e') /\ load library set_constant nothing f = Ok l /\
    fst (predict e X g) = Ok [u] /\ fst (predict_loaded l X g) = Ok [v] /\ ~ u == v.
Proof. apply (changed at_most_one cap_mix (136048896 # 3628072596672) (36 # 640027)); try (vm_compute; reflexivity). intros H. discriminate H. Qed.
(* nothing selected *)
Lemma fit0 : fst (fit par7 0 false dx dyy (start empty_handed usual_mix)) = Ok tt.
Proof. vm_compute. reflexivity. Qed.
Lemma dump0 : fst (dump library constant tested (fitted empty_handed usual_mix)) = Raise IndexError.
Proof. vm_compute. reflexivity. Qed.
Lemma unsaved : exists (D : discovery ML) (C : composition ML) p e e',
  fit p 0 false dx dyy (unfitted D C silent) = (Ok tt, e) /\ is_error e = false /\ M_Fit.is_fitted e = true /\
  dump library constant tested e = (Raise IndexError, e').
Proof.
  exists empty_handed, (mixes usual_mix), par7, (fitted empty_handed usual_mix), (snd (dump library constant tested (fitted empty_handed usual_mix))).
  split; [exact (ended _ _ fit0)|]. split; [vm_compute; reflexivity|]. split; [vm_compute; reflexivity|]. exact (ended _ _ dump0).
Qed.
(* the estimator without arguments *)
Lemma default_unloadable : exists conf (D : discovery ML) (C : composition ML) p e f e',
  build library "suprb.suprb.SupRB" [] = Ok conf /\ fit p 0 false dx dyy (unfitted D C silent) = (Ok tt, e) /\ is_error e = false /\
  dump library constant conf e = (Ok f, e') /\ load library set_constant nothing f = Raise ImportError.
Proof.
  destruct (build library "suprb.suprb.SupRB" []) as [conf|] eqn:B; [|discriminate B]. vm_compute in B.
  exists conf, finds2, (mixes usual_mix), par7, (fitted finds2 usual_mix).
  assert (X : match fst (dump library constant conf (fitted finds2 usual_mix)) with Ok f => match load library set_constant nothing f with Raise ImportError => true | _ => false end | _ => false end = true).
  { injection B as <-. vm_compute. reflexivity. }
  destruct (dump library constant conf (fitted finds2 usual_mix)) as [[f|] e'] eqn:Du; cbn [fst] in X; [|discriminate X]. exists f, e'. split; [reflexivity|]. split; [exact (fit2_ran _)|].
  split; [vm_compute; reflexivity|]. split; [reflexivity|]. destruct (load library set_constant nothing f) as [|[]]; try discriminate X. reflexivity.
Qed.
Lemma unsaved_again : exists (D : discovery ML) (C : composition ML) p e conf f e' l,
  fit p 0 false dx dyy (unfitted D C silent) = (Ok tt, e) /\ dump library constant conf e = (Ok f, e') /\ load library set_constant nothing f = Ok l /\ dump_loaded library constant l = Raise AttributeError.
Proof.
  destruct saved_ex as (f & e' & l & Du & Lo). exists finds2, (mixes usual_mix), par7, (fitted finds2 usual_mix), tested, f, e', l. split; [exact (fit2_ran _)|]. split; [exact Du|]. split; [exact Lo|]. exact (saved_once ML constant l).
Qed.

Definition changes (mx : mixing) : Prop := exists (L : learner) (coefs : Mdl L -> option (list Q * Q)) (linear : string -> list Q -> Q -> Mdl L) absent (D : discovery L) (C : composition L) (G : logger L) p X0 y0 e conf b f e' l X g u v,
    fit p 0 false X0 y0 (unfitted D C G) = (Ok tt, e) /\ M_Fit.elitist e = Some (Learned b) /\ emix b = mx /\ configured library conf OrderedBound (emix b) /\
    linear_models coefs linear /\ dump library coefs conf e = (Ok f, e') /\ load library linear absent f = Ok l /\
    fst (predict e X g) = Ok [u] /\ fst (predict_loaded l X g) = Ok [v] /\ ~ u == v.
Lemma filter_changes_any : changes (mkMixing (NBestFitness 1) ExpAsIs 1).
Proof. destruct filter_changes as (D & C & p & e & conf & b & f & e' & l & X & g & u & v & H). exists ML, constant, set_constant, nothing, D, C, silent, p, dx, dyy, e, conf, b, f, e', l, X, g, u, v. exact H. Qed.
Lemma cap_changes_any : changes (mkMixing KeepAll (CapExperience None (Some 1)) 1).
Proof. destruct cap_changes as (D & C & p & e & conf & b & f & e' & l & X & g & u & v & H). exists ML, constant, set_constant, nothing, D, C, silent, p, dx, dyy, e, conf, b, f, e', l, X, g, u, v. exact H. Qed.
Lemma unsaved_any : exists (L : learner) (coefs : Mdl L -> option (list Q * Q)) (D : discovery L) (C : composition L) (G : logger L) p X y e e' conf mx,
  fit p 0 false X y (unfitted D C G) = (Ok tt, e) /\ is_error e = false /\ M_Fit.is_fitted e = true /\ configured library conf OrderedBound mx /\ dump library coefs conf e = (Raise IndexError, e').
Proof.
  destruct unsaved as (D & C & p & e & e' & F & E & I & Du). exists ML, constant, D, C, silent, p, dx, dyy, e, e', tested, usual_mix.
  split; [exact F|]. split; [exact E|]. split; [exact I|]. split; [exact tested_configured|exact Du].
Qed.
Lemma default_any : exists (L : learner) (coefs : Mdl L -> option (list Q * Q)) (linear : string -> list Q -> Q -> Mdl L) absent (D : discovery L) (C : composition L) (G : logger L) p X y e f e' conf,
  build library "suprb.suprb.SupRB" [] = Ok conf /\ fit p 0 false X y (unfitted D C G) = (Ok tt, e) /\ is_error e = false /\
  dump library coefs conf e = (Ok f, e') /\ load library linear absent f = Raise ImportError.
Proof.
  destruct default_unloadable as (conf & D & C & p & e & f & e' & H). exists ML, constant, set_constant, nothing, D, C, silent, p, dx, dyy, e, f, e', conf. exact H.
Qed.
Lemma again_any : exists (L : learner) (coefs : Mdl L -> option (list Q * Q)) (linear : string -> list Q -> Q -> Mdl L) absent (D : discovery L) (C : composition L) (G : logger L) p X y e f e' l conf mx,
  fit p 0 false X y (unfitted D C G) = (Ok tt, e) /\ configured library conf OrderedBound mx /\ dump library coefs conf e = (Ok f, e') /\ load library linear absent f = Ok l /\ dump_loaded library coefs l = Raise AttributeError.
Proof.
  destruct saved_ex as (f & e' & l & Du & Lo). exists ML, constant, set_constant, nothing, finds2, (mixes usual_mix), silent, par7, dx, dyy, (fitted finds2 usual_mix), f, e', l, tested, usual_mix.
  split; [exact (fit2_ran _)|]. split; [exact tested_configured|]. split; [exact Du|]. split; [exact Lo|]. exact (saved_once ML constant l).
Qed.
Lemma round_trip : forall (L : learner) (coefs : Mdl L -> option (list Q * Q)) (linear : string -> list Q -> Q -> Mdl L) absent (D : discovery L) (C : composition L) (G : logger L) conf conf' t (e e' : est D C G) f b,
  linear_models coefs linear -> configured library conf t (emix b) -> load_config library (save_config library conf) = Ok conf' ->
  M_Fit.is_fitted e = true -> is_error e = false -> M_Fit.elitist e = Some (Learned b) -> Forall (fun r => mt (cond r) = t) (selected b) ->
  mfilter (emix b) = KeepAll -> unbound (mexp (emix b)) = mexp (emix b) -> dump library coefs conf e = (Ok f, e') ->
  exists l, load library linear absent f = Ok l /\ Forall2 (same_rule coefs) (selected b) (l_pool l) /\ forall X g, predict_loaded l X g = predict e X g.
Proof.
  intros L coefs linear absent D C G conf conf' t e e' f b Lw Cf Lc Fi Er El Ty Fk Ub Du. destruct (loads L coefs linear absent D C G _ _ _ _ _ _ _ Cf Lc Du) as [l Lo].
  exists l. split; [exact Lo|]. split; [exact (rules_back L coefs linear absent D C G _ _ _ _ _ _ _ _ (proj1 Lw) Cf El Ty Du Lo)|].
  intros X g. exact (same_answers L coefs linear absent D C G _ _ _ _ _ _ _ X g Lw Cf El Ty Fk Ub Fi Er Du Lo).
Qed.
Lemma rules_restored : forall (L : learner) (coefs : Mdl L -> option (list Q * Q)) (linear : string -> list Q -> Q -> Mdl L) absent (D : discovery L) (C : composition L) (G : logger L) conf t mx (e e' : est D C G) f l b,
  linear_models coefs linear -> configured library conf t mx -> M_Fit.elitist e = Some (Learned b) -> Forall (fun r => mt (cond r) = t) (selected b) ->
  dump library coefs conf e = (Ok f, e') -> load library linear absent f = Ok l -> Forall2 (same_rule coefs) (selected b) (l_pool l).
Proof. intros L coefs linear absent D C G conf t mx e e' f l b Lw. exact (rules_back L coefs linear absent D C G conf t mx e e' f l b (proj1 Lw)). Qed.
