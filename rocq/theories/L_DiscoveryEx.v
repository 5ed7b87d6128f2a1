(* Rule discovery: counterexamples and the cases used in the examples. *)
From Verif Require Import PyNum PyList PyMon PyRng L_Num L_List L_Rng M_Matching S_Matching L_Matching M_Rule S_Rule L_Rule L_RuleProps M_RuleGen PyStat M_Mixing M_GenomeOps M_Discovery S_Discovery L_Discovery L_DiscoveryProps L_Origin.
From Verif Require Import L_GenomeProps L_SagaProps L_SasProps.
From Coq Require Import Permutation Sorted.
From Coq Require Import Lqa.

(* a rule with one ordered interval, fitted *)
Definition on_data (X : matrix) (y : targets) (lo hi : Q) : rule mean_learner :=
  snd (rule_fit mean_learner (fresh_rule mean_learner (mkMatching OrderedBound [(lo, hi)])) X y).
Lemma on_data_fitted X y lo hi : table 1 X y -> fitted_on X y (on_data X y lo hi) /\ length (bnd (cond (on_data X y lo hi))) = 1%nat.
Proof.
  intros [HX Hy]. destruct (fit_fresh_truthful mean_learner (mkMatching OrderedBound [(lo, hi)]) X y) as (r & H1 & H2); [split; [exact HX|exact Hy]|].
  unfold on_data. rewrite H1. cbn [snd]. pose proof (t_cond _ _ _ _ _ H2) as HC. unfold fitted_on. rewrite HC. split; [exact H2|reflexivity].
Qed.
(* three samples, the last one far off *)
Definition dx : matrix := [[0]; [1]; [2]].
Definition dyy : targets := [0; 0; 4].
Definition dx_table : table 1 dx dyy. Proof. split; [repeat constructor|reflexivity]. Qed.
Definition d_env (elite : option (list bool)) : denv mean_learner :=
  mkDenv dx dyy [on_data dx dyy 0 1; on_data dx dyy 0 2] elite (mkMixing KeepAll ExpAsIs 1).
Definition d_conf (o : origin) : dcfg := mkDcfg OrderedBound MeanInit (Clip [(0, 2)]) (Variance (1#2)) o.
Definition es_conf (op : es_op) (n delay : nat) (s : rselection) : escfg := mkEs (d_conf UniformSamples) n 2 op delay (Mut (MutNormal (Scalar 1))) s.
Lemma mean_no_nan m e : is_nan (rfitness mean_learner m e) = false. Proof. reflexivity. Qed.

Lemma plus_needs_fittest : exists D c e g r g', table 1 (dX D) (dy D) /\ fitted_on (dX D) (dy D) e /\ es_operator c = EsPlus /\
  es_loop (L := mean_learner) c D 1 e [] g = (Ok r, g') /\ ~ at_least_as_fit r e.
Proof.
  exists (d_env None), (es_conf EsPlus 1 1 RRandom), (on_data dx dyy 0 0), (scripted [0; 2; 0; 2; 0]).
  destruct (ran_ok (es_loop (L := mean_learner) (es_conf EsPlus 1 1 RRandom) (d_env None) 1 (on_data dx dyy 0 0) [] (scripted [0; 2; 0; 2; 0]))
     (fun r _ => nlt (rfit r) (rfit (on_data dx dyy 0 0)))) as (r & g' & H1 & H2); [vm_compute; reflexivity|].
  exists r, g'. split; [exact dx_table|]. split; [apply on_data_fitted; exact dx_table|]. split; [reflexivity|]. split; [exact H1|].
  intros H. apply (ge_fit mean_learner) in H. apply nle_not_nlt in H. congruence.
Qed.

Definition nx : matrix := [[0]; [1]; [10]; [12]; [20]; [23]].
Definition ny : targets := [0; 4; 0; 6; 0; 2].
Lemma nd_offers_beaten : exists X y (rs : list (rule mean_learner)) g r q g', table 1 X y /\ Forall (fitted_on X y) rs /\
  pick_rules RNondominated rs 1 g = (Ok [r], g') /\ In q rs /\ better_in_both q r.
Proof.
  assert (HT : table 1 nx ny) by (split; [repeat constructor|reflexivity]).
  exists nx, ny, [on_data nx ny 0 1; on_data nx ny 10 12; on_data nx ny 20 23], (scripted [0]), (on_data nx ny 10 12), (on_data nx ny 20 23).
  eexists. split; [exact HT|]. split; [repeat constructor; apply on_data_fitted; exact HT|]. split; [vm_compute; reflexivity|].
  split; [right; right; left; reflexivity|]. do 2 eexists. split; [vm_compute; reflexivity|]. split; [vm_compute; reflexivity|]. split; vm_compute; reflexivity.
Qed.
Lemma uniform_input_not_sample : exists (D : denv mean_learner) g x g', table 1 (dX D) (dy D) /\ origins UniformInput D 1 g = (Ok [x], g') /\
  forall s, In s (dX D) -> ~ Forall2 Qeq x s.
Proof.
  exists (d_env None), (scripted [1#3]), [2#3]. eexists. split; [exact dx_table|]. split; [vm_compute; reflexivity|].
  intros s [<-|[<-|[<-|[]]]] H; inversion H as [|? ? ? ? E]; subst; vm_compute in E; discriminate.
Qed.
Lemma es_and_window : forall (L : learner) (D : denv L) d (c : escfg) n e g r g',
  table d (dX D) (dy D) -> space_dim d (d_constraint (es_d c)) -> (forall m x, is_nan (rfitness L m x) = false) ->
  es_sel c = RFittest -> es_operator c = EsAnd -> fitted_on (dX D) (dy D) e -> length (bnd (cond e)) = d ->
  es_loop c D n e [] g = (Ok r, g') ->
  exists gens, (length gens <= n)%nat /\ bred c D gens g g' /\
    ((length gens = n /\ lineage e gens r /\ best_of_last (dX D) e gens r) \/
     (length (window (es_delay c) gens) = es_delay c /\ nth_error (window (es_delay c) gens) 0 = Some r /\
      Forall (at_least_as_fit r) (window (es_delay c) gens) /\ gens <> [] /\ exists q, lineage e gens q)).
Proof.
  intros L D d c n e g r g' HT HS HN HSel HO HF HL H.
  destruct (es_and L D d HT HN c HS HSel n HO e [] g r g' (conj HF HL) (Forall_nil _) H) as (gens & G1 & G2 & G3).
  exists gens. split; [exact G1|]. split; [exact G2|]. unfold lastk in G3. cbn [app] in G3. rewrite map_length in G3. exact G3.
Qed.
Lemma origins_example :
  let D := d_env (Some [true; true]) in
  table 1 (dX D) (dy D) /\ Forall (fitted_on (dX D) (dy D)) (dpool D) /\ considered D true (dpool D) /\
  (exists x r, In x (dX D) /\ In r (dpool D) /\ ~ covers (cond r) x) /\
  (exists g', origins (Matching true) D 2 (scripted [0; 1#2]) = (Ok [[2]; [2]], g')) /\
  (exists x y g', origins (SquaredError true) D 2 (scripted [0; 1#2]) = (Ok [x; y], g')) /\
  (exists x g', uniform_input (dX D) 1 (scripted [1#2]) = (Ok [x], g')) /\
  (let D2 := mkDenv dx dyy [on_data dx dyy 0 2] None (dmix D) in considered D2 true (dpool D2) /\ (forall x r, In x (dX D2) -> In r (dpool D2) -> covers (cond r) x)).
Proof.
  cbv zeta. split; [exact dx_table|]. split; [repeat constructor; apply on_data_fitted; exact dx_table|].
  split; [split; reflexivity|]. split; [exists [2], (on_data dx dyy 0 1); split; [right; right; left; reflexivity|]; split; [left; reflexivity|]|].
  { intros H. inversion H as [|? ? ? ? [_ E]]; subst. vm_compute in E. congruence. }
  split; [eexists; vm_compute; reflexivity|]. split; [do 3 eexists; vm_compute; reflexivity|]. split; [do 2 eexists; vm_compute; reflexivity|].
  split; [reflexivity|]. intros x r Hx [<-|[]]. change (covers (mkMatching OrderedBound [(0, 2)]) x).
  destruct Hx as [<-|[<-|[<-|[]]]]; repeat constructor; cbn; lra.
Qed.
(* the selection lemmas in the vocabulary of S_Discovery *)
Lemma fittest_returns_best (L : learner) (rs : list (rule L)) n g :
  Forall (fun r => exists f, fitness_is r f /\ f <> NaN) rs ->
  exists out rest, pick_rules RFittest rs n g = (Ok out, g) /\ Permutation rs (out ++ rest) /\ length out = Nat.min n (length rs) /\
    StronglySorted at_least_as_fit out /\ forall a b, In a out -> In b rest -> at_least_as_fit a b.
Proof.
  intros HF. assert (HN : Forall (fun r => is_nan (rfit r) = false) rs).
  { eapply Forall_impl; [|exact HF]. intros r (f & (t & Ht & <-) & Hn). unfold rfit, fit_or_nan. rewrite Ht. destruct (fitness t); cbn in *; congruence. }
  destruct (pick_fittest L rs n g HN) as (out & rest & H1 & H2 & H3 & H4 & H5). exists out, rest.
  assert (HA : forall a b, In a rs -> In b rs -> nle (rfit b) (rfit a) = true -> at_least_as_fit a b).
  { intros a b Ha Hb H. rewrite Forall_forall in HF. destruct (HF a Ha) as (f & (t & Ht & Ef) & _). destruct (HF b Hb) as (f' & (t' & Ht' & Ef') & _).
    exists f, f'. split; [exists t; auto|]. split; [exists t'; auto|]. unfold rfit, fit_or_nan in H. rewrite Ht, Ht', Ef, Ef' in H. exact H. }
  assert (HO : forall a, In a out -> In a rs) by (intros a Ha; eapply Permutation_in; [symmetry; exact H2|apply in_or_app; left; exact Ha]).
  assert (HR : forall a, In a rest -> In a rs) by (intros a Ha; eapply Permutation_in; [symmetry; exact H2|apply in_or_app; right; exact Ha]).
  split; [exact H1|]. split; [exact H2|]. split; [exact H3|]. split; [|intros a b Ha Hb; apply HA; auto].
  clear -H4 HA HO. induction H4 as [|a l H4 IH HFa]; constructor; [apply IH; intros b Hb; apply HO; right; exact Hb|].
  rewrite Forall_forall in *. intros b Hb. apply HA; [apply HO; left; reflexivity|apply HO; right; exact Hb|apply HFa; exact Hb].
Qed.
Lemma roulette_skips_unmatched (L : learner) (rs : list (rule L)) n g out g' :
  pick_rules RRoulette rs n g = (Ok out, g') -> Forall (fun r => exists f, fitness_is r f) rs -> (exists r f, In r rs /\ fitness_is r f /\ f <> NInf) ->
  Forall (fun r => ~ fitness_is r NInf) out.
Proof.
  intros H HA (r & f & Hr & (t & Ht & <-) & Hf). assert (HX : Forall (fun r => rfit r <> NInf) out).
  { eapply roulette_not_ninf; [exact H|]. exists r. split; [exact Hr|]. unfold rfit, fit_or_nan. rewrite Ht. exact Hf. }
  eapply Forall_impl; [|exact HX]. intros q Hq (t' & Ht' & E). apply Hq. unfold rfit, fit_or_nan. rewrite Ht'. exact E.
Qed.
Definition wide_conf : rscfg := mkRs (mkDcfg OrderedBound MeanInit (Clip [(0, 2)]) (MaxError PInf) UniformInput) 1 RFittest.
Lemma infinite_error_accepts : exists (D : denv mean_learner) (c : rscfg) n g r g',
  table 1 (dX D) (dy D) /\ space_dim 1 (d_constraint (rs_d c)) /\ d_accept (rs_d c) = MaxError PInf /\ rs_optimize c D n g = (Ok [r], g') /\
  fitted_on (dX D) (dy D) r /\ ~ matches_some (dX D) r.
Proof.
  exists (mkDenv dx dyy [] None (mkMixing KeepAll ExpAsIs 1)), wide_conf, 1%nat, (scripted [1#4]), (on_data dx dyy (2#4) (2#4)). eexists.
  split; [exact dx_table|]. split; [reflexivity|]. split; [reflexivity|]. split; [vm_compute; reflexivity|]. split; [apply on_data_fitted; exact dx_table|].
  intros (x & Hx & Hc). repeat (destruct Hx as [<-|Hx]; [inversion Hc as [|? ? ? ? [H1 H2] _]; cbn in H1, H2; unfold Qle in *; cbn in *; lia|]). destruct Hx.
Qed.
