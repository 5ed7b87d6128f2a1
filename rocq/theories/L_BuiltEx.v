(* Constructors of the shipped classes, and configurations changed afterwards. *)
From Coq Require Import String Lia.
From Verif Require Import PyNum PyList PyMon L_Num M_Objects M_Components S_Objects S_Built L_Objects L_Clone L_Params L_Representation L_Prepare L_Prepared L_Built L_ObjectsEx.
Local Open Scope string_scope.

Lemma shipped_all (P : classinfo -> Prop) : P opaque -> (forall nc, In nc table -> P (snd nc)) -> forall c, P (shipped c).
Proof. intros H0 HT c. unfold shipped. destruct (find _ table) as [nc|] eqn:E; [|exact H0]. apply find_some in E as [HI _]. exact (HT nc HI). Qed.
Fixpoint distinct (l : list string) : bool := match l with [] => true | x :: l' => negb (existsb (String.eqb x) l') && distinct l' end.
Lemma not_in n l : negb (existsb (String.eqb n) l) = true -> ~ In n l.
Proof. intros H HI. apply Bool.negb_true_iff in H. assert (HX : existsb (String.eqb n) l = true) by (apply existsb_exists; exists n; split; [exact HI|apply String.eqb_refl]). congruence. Qed.
Lemma distinct_ok l : distinct l = true -> NoDup l.
Proof. induction l as [|x l IH]; intros H; [constructor|]. cbn in H. apply andb_prop in H as [H1 H2]. constructor; [exact (not_in _ _ H1)|exact (IH H2)]. Qed.
Definition orderly_b (i : classinfo) : bool := distinct (map fst (derived i)) && forallb (fun d => negb (String.eqb (fst d) "matching_type") && negb (existsb (String.eqb (snd (snd d))) (map fst (derived i)))) (derived i).
Lemma table_orderly : orderly shipped.
Proof.
  intros c. apply (shipped_all (fun i => forall d f n, In (d, (f, n)) (derived i) -> d <> "matching_type" /\ ~ In n (map fst (derived i)) /\ NoDup (map fst (derived i)))); [intros d f n []|].
  assert (HB : forallb (fun nc => orderly_b (snd nc)) table = true) by (vm_compute; reflexivity). rewrite forallb_forall in HB. intros nc HI d f n HD. specialize (HB nc HI). apply andb_prop in HB as [H1 H2].
  rewrite forallb_forall in H2. specialize (H2 _ HD). cbn [fst snd] in H2. apply andb_prop in H2 as [H2 H3]. split; [|split; [exact (not_in _ _ H3)|exact (distinct_ok _ H1)]].
  apply Bool.negb_true_iff in H2. apply String.eqb_neq. exact H2.
Qed.
Definition lasting_b (n : string) : bool := negb (existsb (String.eqb n) assigned) && negb (ends_with "bounds" n).
Lemma lasting_ok n : lasting_b n = true -> lasting n.
Proof. intros H. apply andb_prop in H as [H1 H2]. split; [exact (not_in _ _ H1)|]. apply Bool.negb_true_iff in H2. exact H2. Qed.
Definition lasting_demand (d : demand) : bool :=
  match d with Comparable n => lasting_b n | Below only small _ large => lasting_b large && forallb lasting_b small && match only with Some (n, _) => lasting_b n | None => true end end.
Lemma table_lasting : lasting_classes shipped.
Proof.
  intros c. apply (shipped_all (fun i => (forall d f n, In (d, (f, n)) (derived i) -> lasting d /\ lasting n) /\ (forall d, In d (demands i) -> match d with Comparable n => lasting n | Below only small _ large => lasting large /\ Forall lasting small /\ match only with Some (n, _) => lasting n | None => True end end))); [split; [intros d f n []|intros d []]|].
  assert (HB : forallb (fun nc => forallb (fun d => lasting_b (fst d) && lasting_b (snd (snd d))) (derived (snd nc)) && forallb lasting_demand (demands (snd nc))) table = true) by (vm_compute; reflexivity).
  rewrite forallb_forall in HB. intros nc HI. specialize (HB nc HI). apply andb_prop in HB as [H1 H2]. rewrite forallb_forall in H1, H2. split.
  - intros d f n HD. specialize (H1 _ HD). apply andb_prop in H1 as [A B]. split; apply lasting_ok; assumption.
  - intros d HD. specialize (H2 _ HD). destruct d as [n|only small plus large]; [exact (lasting_ok _ H2)|]. cbn in H2. apply andb_prop in H2 as [H2 H3]. apply andb_prop in H2 as [H2 H4]. split; [exact (lasting_ok _ H2)|].
    split; [apply Forall_forall; intros n HN; rewrite forallb_forall in H4; exact (lasting_ok _ (H4 n HN))|]. destruct only as [[n t]|]; [exact (lasting_ok _ H3)|exact I].
Qed.
Lemma number_numeric v x : number v = Ok x -> numeric v x.
Proof. destruct v as [[| | | | | | ]|]; cbn; try discriminate; intros E; injection E as <-; constructor. Qed.

Section Fit.
Variables (s f : nat) (drd dsc dmt dlog : val) (data : list (list Q)) (ml : Z) (h : heap) (u : unit) (h' : heap).
Hypothesis (HSd : sound h) (HVr : valid h drd) (HVs : valid h dsc) (HVm : valid h dmt) (HVl : valid h dlog).
Hypothesis HJ : forall v, getattr shipped plain_values h (Ref s) "n_jobs" = Ok v -> exists a, v = Prim a.
Hypothesis HOwn : forall rd0, chosen shipped plain_values h s "rule_discovery" drd rd0 -> no_own_representation shipped plain_values h rd0.
Hypothesis HE : prepare_components shipped plain_values f (Ref s) drd dsc dmt dlog data ml h = (Ok u, h').
Lemma worked_built x : worked_with h' s x -> built shipped plain_values h' x.
Proof.
  intros (c & key & HC & HK & HL). destruct (from_clones shipped plain_values table_usual s f drd dsc dmt dlog data ml h u h' HSd HVr HVs HVm HVl HJ HOwn HE c HC) as (v & ha & hb & HCl & HT).
  apply (component_built shipped plain_values table_lasting hb h' HT c key x HK); [|exact HL]. exact (clone_proper shipped plain_values table_orderly _ _ _ _ _ HCl).
Qed.
Lemma worked_class x c : worked_with h' s x -> class_of h' (Ref x) = c -> exists o, nth_error h' x = Some o /\
  (forall d g n, In (d, (g, n)) (derived (shipped c)) -> exists w u, attribute h' x n w /\ compute g w = Ok u /\ attribute h' x d u) /\ (forall d, In d (demands (shipped c)) -> meets shipped plain_values h' (Ref x) d = Ok tt).
Proof. intros HW EC. destruct (worked_built x HW) as (o & EO & HD & HM). cbn in EC. rewrite EO in EC. rewrite EC in HD, HM. exists o. split; [exact EO|]. split; assumption. Qed.
Lemma delay_below x : worked_with h' s x -> class_of h' (Ref x) = "ES1xLambda" -> attribute h' x "operator" (Prim (AStr "&")) ->
  exists vd vn d n, attribute h' x "delay" vd /\ attribute h' x "n_iter" vn /\ numeric vd d /\ numeric vn n /\ nlt d n = true.
Proof.
  intros HW EC HO. destruct (worked_class x _ HW EC) as (o & EO & _ & HM). assert (H := HM (Below (Some ("operator", "&")) ["delay"] 0 "n_iter")). specialize (H ltac:(vm_compute; auto)).
  unfold attribute in *. cbn [meets] in H. rewrite HO in H. cbn [rbind] in H. rewrite String.eqb_refl in H. cbn [follow] in H.
  destruct (getattr shipped plain_values h' (Ref x) "delay") as [vd|] eqn:ED; cbn [rbind follow] in H; [|discriminate]. destruct (number vd) as [d|] eqn:Nd; cbn [rbind] in H; [|discriminate].
  destruct (getattr shipped plain_values h' (Ref x) "n_iter") as [vn|] eqn:EN; cbn [rbind] in H; [|discriminate]. destruct (number vn) as [n|] eqn:Nn; cbn [rbind] in H; [|discriminate].
  exists vd, vn, d, n. split; [reflexivity|]. split; [reflexivity|]. split; [exact (number_numeric _ _ Nd)|]. split; [exact (number_numeric _ _ Nn)|].
  unfold assert_ in H. destruct (nlt (nadd d (Fin (inject_Z 0))) n) eqn:EL; [|discriminate]. clear - EL. destruct d as [q| | |], n as [r| | |]; cbn in *; try discriminate; try reflexivity.
  apply qlt_iff in EL. apply qlt_iff. rewrite <- (Qplus_0_r q). exact EL.
Qed.
Lemma neighbours_below x : worked_with h' s x -> class_of h' (Ref x) = "NoveltySearch" ->
  exists p vk vl k l, attribute h' x "novelty_calculation" p /\ getattr shipped plain_values h' p "k_neighbor" = Ok vk /\ attribute h' x "lmbda" vl /\ numeric vk k /\ numeric vl l /\ nlt (nadd k (Fin 2)) l = true.
Proof.
  intros HW EC. destruct (worked_class x _ HW EC) as (o & EO & _ & HM). assert (H := HM (Below None ["novelty_calculation"; "k_neighbor"] 2 "lmbda")). specialize (H ltac:(vm_compute; auto)).
  unfold attribute in *. cbn [meets rbind follow] in H. destruct (getattr shipped plain_values h' (Ref x) "novelty_calculation") as [p|] eqn:EP; cbn [rbind follow] in H; [|discriminate].
  destruct (getattr shipped plain_values h' p "k_neighbor") as [vk|] eqn:EK; cbn [rbind follow] in H; [|discriminate]. destruct (number vk) as [k|] eqn:Nk; cbn [rbind] in H; [|discriminate].
  destruct (getattr shipped plain_values h' (Ref x) "lmbda") as [vl|] eqn:EL; cbn [rbind] in H; [|discriminate]. destruct (number vl) as [l|] eqn:Nl; cbn [rbind] in H; [|discriminate].
  exists p, vk, vl, k, l. repeat split; try assumption; try (apply number_numeric; assumption). unfold assert_ in H. change (inject_Z 2) with (2 : Q) in H. destruct (nlt _ _); [reflexivity|discriminate].
Qed.
Lemma same_attribute x c d n : worked_with h' s x -> class_of h' (Ref x) = c -> In (d, (Same, n)) (derived (shipped c)) -> exists v, attribute h' x n v /\ attribute h' x d v.
Proof. intros HW EC HI. destruct (worked_class x _ HW EC) as (o & EO & HD & _). destruct (HD _ _ _ HI) as (w & v & H1 & H2 & H3). cbn in H2. injection H2 as <-. exists w. split; assumption. Qed.
Lemma saga2_rates x : worked_with h' s x -> class_of h' (Ref x) = "saga2.SelfAdaptingGeneticAlgorithm" ->
  (exists v, attribute h' x "mutation_rate_max" v /\ attribute h' x "mutation_rate_current_max" v) /\ (exists v, attribute h' x "crossover_rate_min" v /\ attribute h' x "crossover_rate_current_min" v).
Proof. intros HW EC. split; eapply same_attribute; try eassumption; vm_compute; auto. Qed.
Lemma sas_size x : worked_with h' s x -> class_of h' (Ref x) = "SasGeneticAlgorithm" -> exists v, attribute h' x "initial_population_size" v /\ attribute h' x "population_size" v.
Proof. intros HW EC. eapply same_attribute; try eassumption; vm_compute; auto. Qed.
Lemma novelty_weights x : worked_with h' s x -> class_of h' (Ref x) = "NoveltyFitnessBiased" ->
  exists v w a b, attribute h' x "novelty_bias" v /\ attribute h' x "fitness_bias" w /\ numeric v a /\ numeric w b /\ match a, b with Fin p, Fin q => p + q == 1 | _, _ => b = nsub (Fin 1) a end.
Proof.
  intros HW EC. destruct (worked_class x _ HW EC) as (o & EO & HD & _). destruct (HD "fitness_bias" Complement "novelty_bias" ltac:(vm_compute; auto)) as (v & w & H1 & H2 & H3).
  destruct v as [[|b|z|y|t|t|r]|p]; cbn in H2; try discriminate; injection H2 as <-.
  - do 4 eexists. split; [exact H1|]. split; [exact H3|]. split; [constructor|]. split; [constructor|]. destruct b; reflexivity.
  - do 4 eexists. split; [exact H1|]. split; [exact H3|]. split; [constructor|]. split; [constructor|]. change (inject_Z z + inject_Z (1 - z) == 1). rewrite <- inject_Z_plus. replace (z + (1 - z))%Z with 1%Z by lia. reflexivity.
  - do 4 eexists. split; [exact H1|]. split; [exact H3|]. split; [constructor|]. split; [constructor|]. destruct y as [q| | |]; try reflexivity. cbn. ring.
Qed.
End Fit.

(* ----- configurations the constructor would refuse ----- *)
Lemma configured_attribute h v n a ns : param_names shipped h v = Some ns -> configured shipped plain_values h v [n] (Prim a) -> getattr shipped plain_values h v n = Ok (Prim a).
Proof.
  intros HN HC. inversion HC as [|v0 ns0 n0 w path u H1 H2 H3 H4|p o n0 w path u H1 H2 H3 H4]; subst; [inversion H4; subst; exact H3|]. cbn in HN. rewrite H1 in HN. congruence.
Qed.
Lemma wrong_delay_refused s f drd dsc dmt dlog data ml h rd d n :
  sound h -> valid h drd -> valid h dsc -> valid h dmt -> valid h dlog ->
  (forall v, getattr shipped plain_values h (Ref s) "n_jobs" = Ok v -> exists a, v = Prim a) ->
  (forall rd0, chosen shipped plain_values h s "rule_discovery" drd rd0 -> no_own_representation shipped plain_values h rd0) ->
  chosen shipped plain_values h s "rule_discovery" drd rd -> class_of h rd = "ES1xLambda" ->
  configured shipped plain_values h rd ["operator"] (Prim (AStr "&")) -> configured shipped plain_values h rd ["delay"] (Prim (AInt d)) -> configured shipped plain_values h rd ["n_iter"] (Prim (AInt n)) -> (n <= d)%Z ->
  forall u h', prepare_components shipped plain_values f (Ref s) drd dsc dmt dlog data ml h <> (Ok u, h').
Proof.
  intros HSd HVr HVs HVm HVl HJ HOwn HCh EC HO HD HN HLe u h' HE.
  destruct (works_on_copies shipped plain_values table_usual s f drd dsc dmt dlog data ml h u h' HSd HVr HVs HVm HVl HJ HOwn HE) as ((v & c & HCv & HS & HCl & (p & -> & HP) & HCf) & _).
  assert (E : v = rd) by (destruct HCv, HCh; congruence). subst v. rewrite EC in HCl.
  assert (HNs : exists ns, param_names shipped h' (Ref p) = Some ns) by (cbn in HCl |- *; destruct (nth_error h' p) as [o|]; [rewrite HCl; eexists; vm_compute; reflexivity|discriminate]). destruct HNs as (ns & HNs).
  assert (HA : forall m a, In m ["operator"; "delay"; "n_iter"] -> a <> ANone -> configured shipped plain_values h rd [m] (Prim a) -> getattr shipped plain_values h' (Ref p) m = Ok (Prim a)).
  { intros m a HI HNa HC. apply (configured_attribute _ _ _ _ _ HNs). apply HCf; [exact HC| |intros E; contradiction]. intros k [<-|[]] HX. cbn in HI, HX. decompose [or] HI; try contradiction; subst m; repeat (destruct HX as [HX|HX]; [discriminate HX|]); exact HX. }
  destruct (delay_below s f drd dsc dmt dlog data ml h u h' HSd HVr HVs HVm HVl HJ HOwn HE p) as (vd & vn & x & y & H1 & H2 & H3 & H4 & H5).
  - exists (Ref p), []. split; [left; exact HS|]. split; [exact (Component_here _ _ _ _ _ HNs)|intros m []].
  - exact HCl.
  - apply HA; [cbn; auto|discriminate|exact HO].
  - unfold attribute in H1, H2. rewrite (HA "delay" (AInt d)) in H1 by (cbn; auto; discriminate). rewrite (HA "n_iter" (AInt n)) in H2 by (cbn; auto; discriminate). injection H1 as <-. injection H2 as <-.
    inversion H3; subst. inversion H4; subst. cbn in H5. apply qlt_iff in H5. rewrite <- Zlt_Qlt in H5. lia.
Qed.

Definition prep (h : heap) : res unit * heap := prepare_components shipped plain_values 8 (Ref 0) none none (Ref 23) (Ref 24) training 128 h.
Definition late_delay : heap := Eval vm_compute in snd (set_params shipped plain_values (Ref 0) ["rule_discovery"; "n_iter"] (int 100) config).
Lemma set_unchecked : exists h',
  set_params shipped plain_values (Ref 0) ["rule_discovery"; "n_iter"] (int 100) config = (Ok tt, h') /\ outcome config = Ok tt /\ outcome h' = Raise AssertionError /\
  (exists fs, nth_error h' 1 = Some (mkObject "ES1xLambda" fs) /\ fst (construct shipped plain_values "ES1xLambda" fs h') = Raise AssertionError).
Proof. exists late_delay. split; [vm_compute; reflexivity|]. split; [vm_compute; reflexivity|]. split; [vm_compute; reflexivity|]. eexists. split; vm_compute; reflexivity. Qed.
Lemma none_not_default : exists h',
  set_params shipped plain_values (Ref 0) ["rule_discovery"; "init"; "model"] none config = (Ok tt, h') /\ outcome h' = Raise RuntimeError /\
  (exists fs v h2, nth_error h' 2 = Some (mkObject "MeanInit" fs) /\ field fs "model" = Some none /\ construct shipped plain_values "MeanInit" fs h' = (Ok v, h2) /\ exists m, getattr shipped plain_values h2 v "model" = Ok m /\ class_of h2 m = "Ridge").
Proof. eexists. split; [vm_compute; reflexivity|]. split; [vm_compute; reflexivity|]. do 3 eexists. split; [reflexivity|]. split; [reflexivity|]. split; [vm_compute; reflexivity|]. eexists. split; vm_compute; reflexivity. Qed.
(* other compositions *)
Definition saga2 : heap := (write config 0 "solution_composition" (Ref 28) ++ [
  mkObject "saga2.SelfAdaptingGeneticAlgorithm" [("random_state", none); ("n_jobs", int 1); ("n_iter", int 32); ("init", Ref 11); ("archive", Ref 14); ("warm_start", Prim (ABool true)); ("population_size", int 32);
    ("mutation_rate_min", flt (1 # 1000)); ("mutation_rate_max", flt (1 # 10)); ("crossover_rate_min", flt (1 # 2)); ("crossover_rate_max", flt 1); ("mutation", Ref 29); ("crossover", Ref 30); ("selection", Ref 17); ("elitist_ratio", flt (17 # 100));
    ("mutation_rate_current_max", flt (1 # 10)); ("crossover_rate_current_min", flt (1 # 2))];
  mkObject "saga2.BitFlips" []; mkObject "saga2.NPoint" [("n", int 3)]])%list.
Definition sas : heap := (write config 0 "solution_composition" (Ref 28) ++ [
  mkObject "SasGeneticAlgorithm" [("random_state", none); ("n_jobs", int 1); ("n_iter", int 32); ("init", Ref 29); ("archive", Ref 30); ("warm_start", Prim (ABool true)); ("population_size", int 100); ("initial_population_size", int 100);
    ("mutation", Ref 31); ("crossover", Ref 32); ("selection", Ref 33)];
  mkObject "SasRandomInit" [("mixing", Ref 12); ("fitness", Ref 13); ("p", flt (1 # 2))]; mkObject "SasElitist" [];
  mkObject "sas.BitFlips" [("mutation_rate", flt (1 # 1000))]; mkObject "sas.NPoint" [("crossover_rate", flt (9 # 10)); ("n", int 3)]; mkObject "Ageing" []])%list.
Definition biased : heap := (write novelty 28 "novelty_calculation" (Ref 33) ++ [
  mkObject "NoveltyFitnessBiased" [("novelty_bias", flt (1 # 4)); ("novelty_search_type", Ref 31); ("archive", Ref 32); ("k_neighbor", int 15); ("fitness_bias", flt (3 # 4))]])%list.
(* deciding worked_with *)
Fixpoint reach (h : heap) (v : val) (key : list string) : option nat :=
  match param_names shipped h v with
  | None => None
  | Some ns => match key with
               | [] => match v with Ref x => Some x | Prim _ => None end
               | n :: key' => if (existsb (String.eqb n) ns && lasting_b n)%bool then match getattr shipped plain_values h v n with Ok w => reach h w key' | Raise _ => None end else None
               end
  end.
Lemma reach_ok h : forall key v x, reach h v key = Some x -> component_at shipped plain_values h v key x /\ forall n, In n key -> lasting n.
Proof.
  induction key as [|n key IH]; intros v x H; cbn [reach] in H; destruct (param_names shipped h v) as [ns|] eqn:EN; try discriminate.
  - destruct v as [a|p]; [discriminate|]. injection H as <-. split; [exact (Component_here _ _ _ _ _ EN)|intros n []].
  - destruct (existsb (String.eqb n) ns) eqn:EI; [|discriminate]. destruct (lasting_b n) eqn:EL; [|discriminate]. cbn [andb] in H. destruct (getattr shipped plain_values h v n) as [w|] eqn:EG; [|discriminate].
    destruct (IH _ _ H) as [HC HL]. apply existsb_exists in EI as (m & HI & E). apply String.eqb_eq in E. subst m. split; [exact (Component_in _ _ _ _ _ _ _ _ _ EN HI EG HC)|].
    intros m [<-|HM]; [exact (lasting_ok _ EL)|exact (HL m HM)].
Qed.
Lemma worked h x c key : (stored h 0 "rule_discovery_" = Some c \/ stored h 0 "solution_composition_" = Some c) -> reach h c key = Some x -> worked_with h 0 x.
Proof. intros HS HR. destruct (reach_ok _ _ _ _ HR) as [H1 H2]. exists c, key. split; [exact HS|]. split; [exact H1|exact H2]. Qed.
(* what the theorems ask of a configuration *)
Definition fit_for (h : heap) : Prop :=
  sound h /\ valid h none /\ valid h (Ref 23) /\ valid h (Ref 24) /\ (forall v, getattr shipped plain_values h (Ref 0) "n_jobs" = Ok v -> exists a, v = Prim a) /\
  (forall rd, chosen shipped plain_values h 0 "rule_discovery" none rd -> no_own_representation shipped plain_values h rd).
Lemma fit_for_ok h rd ps : sound_b h = true -> Nat.ltb 24 (length h) = true -> getattr shipped plain_values h (Ref 0) "n_jobs" = Ok (int 1) -> getattr shipped plain_values h (Ref 0) "rule_discovery" = Ok (Ref rd) ->
  get_params shipped plain_values 8 h (Ref rd) = Ok ps -> forallb (fun kv => own_b (fst kv)) ps = true -> fit_for h.
Proof.
  intros H1 H2 H3 H4 H5 H6. apply Nat.ltb_lt in H2. split; [exact (sound_ok _ H1)|]. split; [exact I|]. split; [cbn; lia|]. split; [cbn; lia|]. split; [intros v E; rewrite H3 in E; injection E as <-; eexists; reflexivity|].
  intros r HC. apply chosen_first in HC as [E|[E _]]; rewrite H4 in E; [injection E as <-; exact (own_ok _ _ _ H5 H6)|discriminate].
Qed.
Ltac fits := eapply fit_for_ok; vm_compute; reflexivity.
Lemma delay_case : fit_for config /\ exists h', prep config = (Ok tt, h') /\ exists x, worked_with h' 0 x /\ class_of h' (Ref x) = "ES1xLambda" /\ attribute h' x "operator" (Prim (AStr "&")) /\ attribute h' x "delay" (int 146) /\ attribute h' x "n_iter" (int 1000).
Proof.
  split; [fits|]. exists prepared_heap. split; [exact prepared_heap_ok|]. eexists. split; [eapply (worked _ _ _ []); [left; vm_compute; reflexivity|vm_compute; reflexivity]|]. repeat split; vm_compute; reflexivity.
Qed.
Lemma refused_case : fit_for late_delay /\ chosen shipped plain_values late_delay 0 "rule_discovery" none (Ref 1) /\ class_of late_delay (Ref 1) = "ES1xLambda" /\
  configured shipped plain_values late_delay (Ref 1) ["operator"] (Prim (AStr "&")) /\ configured shipped plain_values late_delay (Ref 1) ["delay"] (int 146) /\ configured shipped plain_values late_delay (Ref 1) ["n_iter"] (int 100).
Proof.
  split; [fits|]. split; [apply Chosen_given; [vm_compute; reflexivity|discriminate]|]. split; [vm_compute; reflexivity|].
  assert (HP : forall n w, existsb (String.eqb n) ["operator"; "delay"; "n_iter"] = true -> getattr shipped plain_values late_delay (Ref 1) n = Ok w -> configured shipped plain_values late_delay (Ref 1) [n] w).
  { intros n w HI HG. apply existsb_exists in HI as (m & HI & E). apply String.eqb_eq in E. subst m. eapply Configured_param; [vm_compute; reflexivity| |exact HG|constructor]. cbn in HI |- *. decompose [or] HI; try contradiction; subst n; auto 20. }
  repeat split; apply HP; vm_compute; reflexivity.
Qed.
Lemma neighbours_case : fit_for novelty /\ exists h', prep novelty = (Ok tt, h') /\ exists x, worked_with h' 0 x /\ class_of h' (Ref x) = "NoveltySearch" /\ attribute h' x "lmbda" (int 160).
Proof.
  split; [fits|]. eexists. split; [vm_compute; reflexivity|]. eexists. split; [eapply (worked _ _ _ []); [left; vm_compute; reflexivity|vm_compute; reflexivity]|]. repeat split; vm_compute; reflexivity.
Qed.
(* the rates set afterwards *)
Definition saga2_late : heap := Eval vm_compute in snd (set_params shipped plain_values (Ref 0) ["solution_composition"; "mutation_rate_max"] (flt (1 # 5)) saga2).
Definition sas_late : heap := Eval vm_compute in snd (set_params shipped plain_values (Ref 0) ["solution_composition"; "initial_population_size"] (int 50) sas).
Definition biased_late : heap := Eval vm_compute in snd (set_params shipped plain_values (Ref 0) ["rule_discovery"; "novelty_calculation"; "novelty_bias"] (flt (1 # 3)) biased).
Lemma saga2_case : fit_for saga2_late /\ exists h', prep saga2_late = (Ok tt, h') /\ exists x, worked_with h' 0 x /\ class_of h' (Ref x) = "saga2.SelfAdaptingGeneticAlgorithm" /\ attribute h' x "mutation_rate_current_max" (flt (1 # 5)).
Proof.
  split; [fits|]. eexists. split; [vm_compute; reflexivity|]. eexists. split; [eapply (worked _ _ _ []); [right; vm_compute; reflexivity|vm_compute; reflexivity]|]. repeat split; vm_compute; reflexivity.
Qed.
Lemma sas_case : fit_for sas_late /\ exists h', prep sas_late = (Ok tt, h') /\ exists x, worked_with h' 0 x /\ class_of h' (Ref x) = "SasGeneticAlgorithm" /\ attribute h' x "population_size" (int 50).
Proof.
  split; [fits|]. eexists. split; [vm_compute; reflexivity|]. eexists. split; [eapply (worked _ _ _ []); [right; vm_compute; reflexivity|vm_compute; reflexivity]|]. repeat split; vm_compute; reflexivity.
Qed.
Lemma biased_case : fit_for biased_late /\ exists h', prep biased_late = (Ok tt, h') /\ exists x, worked_with h' 0 x /\ class_of h' (Ref x) = "NoveltyFitnessBiased" /\ attribute h' x "novelty_bias" (flt (1 # 3)).
Proof.
  split; [fits|]. eexists. split; [vm_compute; reflexivity|]. eexists. split; [eapply (worked _ _ _ ["novelty_calculation"]); [left; vm_compute; reflexivity|vm_compute; reflexivity]|]. repeat split; vm_compute; reflexivity.
Qed.
Lemma stale_until_fit : exists h', set_params shipped plain_values (Ref 28) ["mutation_rate_max"] (flt (1 # 5)) saga2 = (Ok tt, h') /\
  attribute h' 28 "mutation_rate_max" (flt (1 # 5)) /\ attribute h' 28 "mutation_rate_current_max" (flt (1 # 10)).
Proof. eexists. split; [vm_compute; reflexivity|]. split; vm_compute; reflexivity. Qed.
Lemma keyword_lost : exists h1 h2 x, wrapper shipped plain_values (Ref 0) [("solution_composition__population_size", int 7)] sas = (Ok (Ref 0, []), h1) /\ attribute h1 28 "population_size" (int 7) /\
  prep h1 = (Ok tt, h2) /\ stored h2 0 "solution_composition_" = Some (Ref x) /\ attribute h2 x "population_size" (int 100).
Proof. do 3 eexists. split; [vm_compute; reflexivity|]. split; [vm_compute; reflexivity|]. split; [vm_compute; reflexivity|]. split; vm_compute; reflexivity. Qed.
Lemma stale : exists h p h', class_of h (Ref p) = "saga2.SelfAdaptingGeneticAlgorithm" /\
  set_params shipped plain_values (Ref p) ["mutation_rate_max"] (flt (1 # 5)) h = (Ok tt, h') /\ attribute h' p "mutation_rate_max" (flt (1 # 5)) /\ attribute h' p "mutation_rate_current_max" (flt (1 # 10)).
Proof. exists saga2, 28%nat. destruct stale_until_fit as (h' & H). exists h'. split; [vm_compute; reflexivity|exact H]. Qed.
Lemma keyword_ignored : exists h p h1 h2 x, class_of h (Ref p) = "SasGeneticAlgorithm" /\ stored h 0 "solution_composition" = Some (Ref p) /\
  wrapper shipped plain_values (Ref 0) [("solution_composition__population_size", int 7)] h = (Ok (Ref 0, []), h1) /\ attribute h1 p "population_size" (int 7) /\
  prep h1 = (Ok tt, h2) /\ stored h2 0 "solution_composition_" = Some (Ref x) /\ attribute h2 x "population_size" (int 100).
Proof. exists sas, 28%nat. destruct keyword_lost as (h1 & h2 & x & H). exists h1, h2, x. split; [vm_compute; reflexivity|]. split; [vm_compute; reflexivity|exact H]. Qed.
