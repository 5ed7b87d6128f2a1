(* Novelty search: the statements used for the properties, counterexamples and the cases used in the examples. *)
From Coq Require Import Permutation Sorted.
From Verif Require Import PyNum PyList PyMon PyRng PyStat L_Num L_List L_Rng M_Matching S_Matching L_Matching M_Rule S_Rule L_Rule L_RuleProps M_RuleGen L_RuleGen M_Mixing M_GenomeOps M_Discovery S_Discovery L_SagaProps L_SasProps L_GenomeProps L_Discovery L_DiscoveryProps L_DiscoveryEx M_Novelty S_Novelty L_NoveltyNum L_Novelty L_NoveltyScore L_NoveltyProps L_NoveltyRun.
From Coq Require Import Lqa.

Section Statements.
Variable L : learner.
Variables (X : matrix) (y : targets) (d : nat).
Hypothesis HT : table d X y.
Hypothesis HX : X <> [].
Hypothesis HP : forall m e, exists q, rfitness L m e = Fin q.
Let D : denv L := mkDenv X y [] None (mkMixing KeepAll ExpAsIs 1).
Let HTD : table d (dX D) (dy D) := HT.
Let HXD : dX D <> [] := HX.
Implicit Types st : nst L.

Lemma novelty_works b t k rs st : ready d X y st -> Forall (live st) rs -> rs <> [] -> type_ok t ->
  exists out st', novelty b t k rs st = (Ok out, st') /\ out <> [] /\ incl out rs /\ ready d X y st' /\
    Forall (fun i => exists s, novelty_is st' i s) out.
Proof.
  intros HR HL HN Ht. apply (ready_iff L D d) in HR as [HO HA].
  destruct (novelty_total L D d HTD HXD HP b t k rs st HO HA HL HN Ht) as (out & fl & st' & E & N & I1 & I2 & _ & O & A & F & S & _).
  exists out, st'. split; [exact E|]. split; [exact N|]. split; [eapply incl_tran; eauto|]. split; [apply (ready_iff L D d); split; assumption|].
  apply Forall_forall. intros i Hi. destruct (S i (I1 i Hi)) as (s & Hs & _). exists s. apply novelty_is_iff. exact Hs.
Qed.
Lemma novelty_range b t k rs st out st' : ready d X y st -> Forall (live st) rs -> rs <> [] -> type_ok t -> (forall nb fb, b <> NBiased nb fb) ->
  novelty b t k rs st = (Ok out, st') -> Forall (fun i => exists q, novelty_is st' i (Fin q) /\ 0 <= q <= match t with TLocal _ => 2 | _ => 1 end) out.
Proof.
  intros HR HL HN Ht Hb H. apply (ready_iff L D d) in HR as [HO HA].
  destruct (novelty_total L D d HTD HXD HP b t k rs st HO HA HL HN Ht) as (out' & fl & st'' & E & N & I1 & I2 & _ & O & A & F & S & _).
  assert (out' = out /\ st'' = st') as [-> ->] by (split; congruence). apply Forall_forall. intros i Hi. destruct (S i (I1 i Hi)) as (s & Hs & Ho). unfold okscore in Ho.
  destruct b; [| | |exfalso; eapply Hb; reflexivity]; destruct Ho as (q & -> & Hq); exists q; (split; [apply novelty_is_iff; exact Hs|exact Hq]).
Qed.
Lemma pareto_front_ok t k rs st : ready d X y st -> Forall (live st) rs -> rs <> [] -> type_ok t ->
  exists out fl st', novelty NPareto t k rs st = (Ok out, st') /\ filter_rules t rs st = (Ok fl, st) /\ incl out fl /\ incl fl rs /\ ((forall q, t <> TMinimal q) -> fl = rs) /\
    (forall i, In i fl -> (forall j, In j fl -> ~ dominates st' j i) -> In i out) /\
    (forall i j, In i out -> In j fl -> ~ beats_in_both st' j i).
Proof. intros HR HL HN Ht. apply (ready_iff L D d) in HR as [HO HA]. exact (pareto_spec L D d HTD HXD HP t k rs st HO HA HL HN Ht). Qed.
Lemma exact_scores k rs st : ready d X y st -> rs <> [] -> NoDup rs -> Forall (unseen st) rs -> (forall i, In i rs -> ~ In i (arch st)) ->
  exists st', novelty NBasic TBasic k rs st = (Ok rs, st') /\
    forall i, In i rs -> exists s ds, novelty_is st' i (Fin s) /\
      Forall2 (fun j q => exists a b, matches_are st i a /\ matches_are st j b /\ distance_is a b q) (arch st ++ rs) ds /\
      mean_of_smallest (Nat.min k (length (arch st ++ rs) - 1)) ds s.
Proof. exact (score_exact L D d HTD HXD k rs st). Qed.
Lemma minimal_ok st q rs : ready d X y st -> Forall (live st) rs -> rs <> [] -> 0 <= q <= 100 ->
  exists out keep, filter_rules (TMinimal q) rs st = (Ok out, st) /\ out <> [] /\ out = compress rs keep /\ length keep = length rs /\
    (forall i ms, In i rs -> matches_are st i ms -> (25 <= length (filter (fun b => b) ms))%nat -> In i out) /\
    (forall i j ms ms', In i out -> In j rs -> matches_are st i ms -> matches_are st j ms' -> (length (filter (fun b => b) ms) <= length (filter (fun b => b) ms'))%nat -> In j out) /\
    inject_Z (Z.of_nat (length rs - length out)) < q / 100 * inject_Z (Z.of_nat (length rs - 1)) + 1.
Proof. exact (minimal_criteria L D d st q rs). Qed.
Lemma progressive_ok t k rs st : ready d X y st -> Forall (live st) rs -> rs <> [] -> type_ok t -> (forall q, t <> TMinimal q) ->
  exists out keep st', novelty NProgressive t k rs st = (Ok out, st') /\ out <> [] /\ out = compress rs keep /\ length keep = length rs /\
    (2 * (length rs - length out) <= length rs)%nat /\
    (forall i j f h, In i out -> In j rs -> fitness_at st i f -> fitness_at st j h -> nle f h = true -> In j out) /\
    (forall i f fitter, In i out -> fitness_at st i f -> incl fitter rs -> NoDup fitter -> (forall j, In j fitter -> exists h, fitness_at st j h /\ nlt f h = true) -> (2 * length fitter <= length rs)%nat).
Proof. exact (progressive_filter L D d HTD HXD HP t k rs st). Qed.
Lemma expof_at st i : allok L D d st -> live st i -> experience_at st i (expof L st i).
Proof. intros HA HL. destruct (live_cell L st i HL) as (c & Hc). destruct (att_of L D d st i c HA Hc) as (t & Ht & _). exists c, t. unfold expof. rewrite Hc, Ht. auto. Qed.
Lemma selection_best (c : nscfg) rs n roh st : ready d X y st -> Forall (live st) rs -> rs <> [] -> type_ok (ns_type c) -> (forall nb fb, ns_calc c <> NBiased nb fb) ->
  exists mid out rest new st', rule_selection c rs n roh st = (Ok out, st') /\ ready d X y st' /\ incl mid rs /\ mid <> [] /\ Permutation mid (out ++ rest) /\ length out = Nat.min n (length mid) /\
    StronglySorted (preferred st') out /\ (forall a b, In a out -> In b rest -> preferred st' a b) /\ arch st' = arch st ++ new /\ incl new mid.
Proof.
  intros HR HL HN Ht Hb. apply (ready_iff L D d) in HR as HI.
  destruct (selection_total L D d HTD HXD HP c rs n roh st HI HL HN Ht) as (mid & out & rest & new & st' & E & I & _ & C & N & P & Hl & F & S & A & NW & HS). destruct (HS Hb) as [S1 S2].
  exists mid, out, rest, new, st'. split; [exact E|]. split; [apply (ready_iff L D d); exact I|]. repeat (split; [assumption|]).
  assert (HQ : forall a b, In a mid -> In b mid -> ranked L st' a b -> preferred st' a b).
  { intros a b Ha Hb' HRk. destruct (S a Ha) as (s & Hs & _). destruct (S b Hb') as (s' & Hs' & _). rewrite Forall_forall in F.
    exists s, (expof L st' a), s', (expof L st' b). split; [exact Hs|]. split; [apply expof_at; [apply okheap_allok; apply I|apply has_live, F; exact Ha]|]. split; [exact Hs'|].
    split; [apply expof_at; [apply okheap_allok; apply I|apply has_live, F; exact Hb']|]. unfold ranked, lex_ge, vkey in HRk. cbn [fst snd] in HRk.
    apply novelty_is_iff in Hs, Hs'. unfold sval in HRk. rewrite Hs, Hs' in HRk. rewrite neqb_sym. exact HRk. }
  assert (HO : forall a, In a out -> In a mid) by (intros a Ha; apply (Permutation_in _ (Permutation_sym P)), in_or_app; left; exact Ha).
  assert (HRs : forall a, In a rest -> In a mid) by (intros a Ha; apply (Permutation_in _ (Permutation_sym P)), in_or_app; right; exact Ha).
  split; [|split; [intros a b Ha Hb'; apply HQ; auto|split; assumption]]. clear -S1 HQ HO. induction S1 as [|a l S1 IH HF]; [constructor|]. constructor; [apply IH; intros z Hz; apply HO; right; exact Hz|].
  apply Forall_forall. intros b Hb. rewrite Forall_forall in HF. apply HQ; [apply HO; left; reflexivity|apply HO; right; exact Hb|auto].
Qed.
End Statements.

(* ----- concrete heaps ----- *)
Definition fresh_cell (r : rule mean_learner) : cell mean_learner := mkCell r None None None.
Definition old_cell (r : rule mean_learner) : cell mean_learner := mkCell r (Some [0]) (Some 0%nat) None.
Lemma mean_finite m e : exists q, rfitness mean_learner m e = Fin q. Proof. eexists. reflexivity. Qed.
(* the archive holds the rule for [0,1]; three new rules *)
Definition nst1 : nst mean_learner := mkNst [old_cell (on_data dx dyy 0 1); fresh_cell (on_data dx dyy 0 0); fresh_cell (on_data dx dyy 1 2); fresh_cell (on_data dx dyy 1 1)] [0%nat] (scripted []).
Lemma fresh_ready X y lo hi : table 1 X y -> let c := fresh_cell (on_data X y lo hi) in fitted_on X y (crule c) /\ length (bnd (cond (crule c))) = 1%nat /\
  (cidx c <> None -> cdist c <> None) /\ forall ds, cdist c = Some ds -> ds <> [] /\ Forall (fun q => 0 <= q <= 1) ds.
Proof. intros HT. destruct (on_data_fitted X y lo hi HT) as [H1 H2]. split; [exact H1|]. split; [exact H2|]. split; [intros H; exfalso; apply H; reflexivity|intros ds H; discriminate H]. Qed.
Lemma old_ready X y lo hi : table 1 X y -> let c := old_cell (on_data X y lo hi) in fitted_on X y (crule c) /\ length (bnd (cond (crule c))) = 1%nat /\
  (cidx c <> None -> cdist c <> None) /\ forall ds, cdist c = Some ds -> ds <> [] /\ Forall (fun q => 0 <= q <= 1) ds.
Proof.
  intros HT. destruct (on_data_fitted X y lo hi HT) as [H1 H2]. split; [exact H1|]. split; [exact H2|]. split; [discriminate|]. intros ds H. injection H as <-.
  split; [discriminate|]. constructor; [split; discriminate|constructor].
Qed.
Lemma nst1_ready : ready 1 dx dyy nst1.
Proof.
  split.
  - apply Forall_cons; [apply old_ready; exact dx_table|]. repeat (apply Forall_cons; [apply fresh_ready; exact dx_table|]). constructor.
  - repeat constructor. do 2 eexists. split; reflexivity.
Qed.
Lemma nst1_live : Forall (live nst1) [1; 2; 3]%nat. Proof. repeat constructor. Qed.
Lemma nst1_unseen : Forall (unseen nst1) [1; 2; 3]%nat. Proof. repeat constructor; eexists; split; reflexivity. Qed.

Ltac cell_fact := repeat (eexists; split; [vm_compute; reflexivity|]); vm_compute; reflexivity.
(* two equally fit rules: the less novel one comes second and is kept *)
Lemma pareto_keeps_dominated : exists d X y (st : nst mean_learner) rs k out st' i j, table d X y /\ ready d X y st /\ Forall (live st) rs /\
  novelty NPareto TBasic k rs st = (Ok out, st') /\ In i out /\ In j rs /\ dominates st' j i.
Proof.
  exists 1%nat, dx, dyy, nst1, [1; 2; 3]%nat, 3%nat, [1; 3]%nat, (snd (novelty NPareto TBasic 3 [1; 2; 3]%nat nst1)), 3%nat, 1%nat.
  split; [exact dx_table|]. split; [exact nst1_ready|]. split; [exact nst1_live|]. split; [vm_compute; reflexivity|]. split; [right; left; reflexivity|]. split; [left; reflexivity|].
  eexists _, _, _, _. split; [cell_fact|]. split; [cell_fact|]. split; [cell_fact|]. split; [cell_fact|]. split; [reflexivity|]. split; [reflexivity|]. left; reflexivity.
Qed.
(* local competition adds to the score *)
Lemma local_score_exceeds : exists d X y (st : nst mean_learner) rs k range out st' i q, table d X y /\ ready d X y st /\ Forall (live st) rs /\ type_ok (TLocal range) /\
  novelty NBasic (TLocal range) k rs st = (Ok out, st') /\ In i out /\ novelty_is st' i (Fin q) /\ 1 < q.
Proof.
  exists 1%nat, dx, dyy, nst1, [1; 2; 3]%nat, 3%nat, 2%nat, [1; 2; 3]%nat, (snd (novelty NBasic (TLocal 2) 3 [1; 2; 3]%nat nst1)), 2%nat. eexists.
  split; [exact dx_table|]. split; [exact nst1_ready|]. split; [exact nst1_live|]. split; [cbn; lia|]. split; [vm_compute; reflexivity|]. split; [right; left; reflexivity|]. split; [cell_fact|]. reflexivity.
Qed.
(* a rule is its own nearest neighbour: with one neighbour nothing is novel, however different the others are *)
Lemma self_is_neighbour : exists d X y (st : nst mean_learner) rs out st' i, table d X y /\ ready d X y st /\ Forall (live st) rs /\
  novelty NBasic TBasic 1 rs st = (Ok out, st') /\ In i rs /\ novelty_is st' i (Fin 0) /\
  Forall (fun j => j = i \/ exists a b q, matches_are st i a /\ matches_are st j b /\ distance_is a b q /\ 1 # 3 <= q) (arch st ++ rs).
Proof.
  exists 1%nat, dx, dyy, nst1, [1; 2; 3]%nat, [1; 2; 3]%nat, (snd (novelty NBasic TBasic 1 [1; 2; 3]%nat nst1)), 1%nat.
  split; [exact dx_table|]. split; [exact nst1_ready|]. split; [exact nst1_live|]. split; [vm_compute; reflexivity|]. split; [left; reflexivity|]. split; [cell_fact|].
  assert (H1 : matches_are nst1 1 [true; false; false]) by (eexists _, _; split; [vm_compute; reflexivity|]; split; [vm_compute; reflexivity|vm_compute; reflexivity]).
  constructor.
  - right. exists [true; false; false], [true; true; false], (1 # 3). split; [exact H1|]. split; [eexists _, _; split; [vm_compute; reflexivity|]; split; [vm_compute; reflexivity|vm_compute; reflexivity]|].
    split; [split; [reflexivity|split; [discriminate|reflexivity]]|discriminate].
  - constructor; [left; reflexivity|]. constructor; [|constructor; [|constructor]].
    + right. exists [true; false; false], [false; true; true], 1. split; [exact H1|]. split; [eexists _, _; split; [vm_compute; reflexivity|]; split; [vm_compute; reflexivity|vm_compute; reflexivity]|].
      split; [split; [reflexivity|split; [discriminate|reflexivity]]|discriminate].
    + right. exists [true; false; false], [false; true; false], (2 # 3). split; [exact H1|]. split; [eexists _, _; split; [vm_compute; reflexivity|]; split; [vm_compute; reflexivity|vm_compute; reflexivity]|].
      split; [split; [reflexivity|split; [discriminate|reflexivity]]|discriminate].
Qed.
(* crossover needs ordered bounds *)
Lemma crossover_other_types : forall t a b rate g, t <> OrderedBound -> 1 <= rate -> exists g', crossover rate t a b g = (Raise TypeError, g').
Proof.
  intros t a b rate g Ht Hr. unfold crossover, bind, random. destruct (draw g) as [q g1]. set (u := u01 q). assert (HU : 0 <= u < 1) by apply u01_range. clearbody u. destruct (qlt_spec u rate) as [_|H]; [|lra].
  destruct t; try congruence; eexists; reflexivity.
Qed.
(* a whole run *)
Definition ns_conf (n : nat) (b : ncalc) (t : nstype) (a : archive_kind) : nscfg := mkNs (d_conf UniformSamples) n 2 4 1 1 false (1#2) (Mut (MutNormal (Scalar 1))) RFittest b t a 1.
Lemma old_searched : Forall (searched 1 dx dyy) [old_cell (on_data dx dyy 0 1)].
Proof.
  constructor; [|constructor]. destruct (old_ready dx dyy 0 1 dx_table) as (H1 & H2 & _ & H3). split; [exact H1|]. split; [exact H2|]. exists [0]. split; [reflexivity|]. apply H3. reflexivity.
Qed.
Lemma crossed_boxes a b g cs g' : Forall (fun i => fst i <= snd i) (bnd a) -> Forall (fun i => fst i <= snd i) (bnd b) ->
  uniform_crossover OrderedBound a b g = (Ok cs, g') -> Forall (fun m => Forall (fun i => fst i <= snd i) (bnd m)) cs.
Proof.
  intros Ha Hb H. apply crossed_ok in H as (a' & b' & -> & _ & _ & L1 & L2 & HN). rewrite Forall_forall in Ha, Hb.
  assert (HG : forall m, length (bnd m) = length (bnd a) -> (forall i p, nth_error (bnd m) i = Some p -> nth_error (bnd a) i = Some p \/ nth_error (bnd b) i = Some p) -> Forall (fun i => fst i <= snd i) (bnd m)).
  { intros m Hl Hm. apply Forall_forall. intros p Hp. apply In_nth_error in Hp as (i & Hi). destruct (Hm i p Hi) as [H|H]; apply nth_error_In in H; auto. }
  assert (HI : forall m i p, length (bnd m) = length (bnd a) -> nth_error (bnd m) i = Some p -> (i < length (bnd a))%nat) by (intros m i p E Hi; rewrite <- E; apply nth_error_Some; congruence).
  constructor; [|constructor; [|constructor]].
  - apply HG; [exact L1|]. intros i p Hi. destruct (HN i (HI _ _ _ L1 Hi)) as (u & v & Hu & Hv & [[E1 E2]|[E1 E2]]); [left|right]; congruence.
  - apply HG; [exact L2|]. intros i p Hi. destruct (HN i (HI _ _ _ L2 Hi)) as (u & v & Hu & Hv & [[E1 E2]|[E1 E2]]); [right|left]; congruence.
Qed.
Lemma no_crossover t a b rate g : rate <= 0 -> exists g', crossover rate t a b g = (Ok [a; b], g').
Proof.
  intros H. unfold crossover, bind, random. destruct (draw g) as [q g1]. pose proof (u01_range q) as HU. destruct (qlt_spec (u01 q) rate); [lra|]. eexists. reflexivity.
Qed.
Lemma pick_all (mask : list bool) (x y : list (Q * Q)) : length x = length mask -> length y = length mask ->
  rmap (fun i => of_option IndexError (nth_error (if nth i mask false then x else y) i)) (seq 0 (length x)) =
  Ok (map (fun z : bool * ((Q * Q) * (Q * Q)) => if fst z then fst (snd z) else snd (snd z)) (combine mask (combine x y))).
Proof.
  assert (HG : forall (f : nat -> res (Q * Q)) x y mask k, length x = length mask -> length y = length mask ->
     (forall i, (i < length mask)%nat -> f (k + i)%nat = of_option IndexError (nth_error (if nth i mask false then x else y) i)) ->
     rmap f (seq k (length x)) = Ok (map (fun z : bool * ((Q * Q) * (Q * Q)) => if fst z then fst (snd z) else snd (snd z)) (combine mask (combine x y)))).
  { clear. intros f. induction x as [|p x IH]; intros [|q y] [|m mask] k Hx Hy Hf; try discriminate; [reflexivity|]. cbn [length seq rmap combine map fst snd].
    pose proof (Hf 0%nat ltac:(cbn; lia)) as H0. rewrite Nat.add_0_r in H0. rewrite H0. rewrite (IH y mask (S k)); [|cbn in *; lia|cbn in *; lia|].
    - destruct m; reflexivity.
    - intros i Hi. specialize (Hf (S i) ltac:(cbn; lia)). cbn [nth] in Hf. replace (S k + i)%nat with (k + S i)%nat by lia. rewrite Hf. destruct (nth i mask false); reflexivity. }
  intros Hx Hy. apply HG; [exact Hx|exact Hy|]. intros i _. reflexivity.
Qed.
Lemma every_mix a b mask : length (bnd a) = length mask -> length (bnd b) = length mask ->
  exists g g', uniform_crossover OrderedBound a b g =
    (Ok [mkMatching (mt a) (map (fun z : bool * ((Q * Q) * (Q * Q)) => if fst z then fst (snd z) else snd (snd z)) (combine mask (combine (bnd a) (bnd b))));
         mkMatching (mt b) (map (fun z : bool * ((Q * Q) * (Q * Q)) => if fst z then snd (snd z) else fst (snd z)) (combine mask (combine (bnd a) (bnd b))))], g').
Proof.
  intros Ha Hb. set (us := map (fun m : bool => if m then 1 else 0) mask). assert (HU : length us = length (bnd a)) by (unfold us; rewrite map_length; congruence).
  exists (scripted us). pose proof (draws_scripted us) as HD. rewrite HU in HD. unfold uniform_crossover, bind, choices, lift.
  destruct (draws (length (bnd a)) (scripted us)) as [qs g1]. cbn in HD. subst qs. exists g1.
  assert (EM : map (fun q => nth (index_of (length [false; true]) q) [false; true] false) us = mask).
  { unfold us. rewrite map_map. rewrite <- (map_id mask) at 2. apply map_ext. intros [|]; reflexivity. }
  rewrite EM. rewrite (pick_all mask (bnd a) (bnd b) Ha Hb). cbn beta iota. 
  assert (E2 : length (bnd a) = length (bnd b)) by congruence. rewrite E2. rewrite (pick_all mask (bnd b) (bnd a) Hb Ha).
  replace (map (fun z : bool * (Q * Q * (Q * Q)) => if fst z then fst (snd z) else snd (snd z)) (combine mask (combine (bnd b) (bnd a))))
    with (map (fun z : bool * (Q * Q * (Q * Q)) => if fst z then snd (snd z) else fst (snd z)) (combine mask (combine (bnd a) (bnd b)))); [reflexivity|].
  clear. revert mask. generalize (bnd a) as x, (bnd b) as y. induction x as [|p x IH]; intros [|q y] [|m mask]; try reflexivity. cbn. rewrite IH. destruct m; reflexivity.
Qed.
Lemma crossover_refuted : exists t a b g g', t <> OrderedBound /\ mt a = t /\ mt b = t /\ length (bnd a) = length (bnd b) /\ crossover (1#5) t a b g = (Raise TypeError, g').
Proof.
  exists UnorderedBound, (mkMatching UnorderedBound [(1, 0)]), (mkMatching UnorderedBound [(0, 1)]), (scripted [0]). eexists. split; [discriminate|]. split; [reflexivity|]. split; [reflexivity|]. split; [reflexivity|].
  vm_compute. reflexivity.
Qed.
