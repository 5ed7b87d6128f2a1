(* Small components and runs of the estimator used as witnesses. *)
From Coq Require Import Lia.
From Verif Require Import PyNum PyList PyMon PyRng L_Num L_List M_Matching M_Rule M_RuleGen M_Mixing M_Fit S_Fit L_Fit L_FitProps L_FitSeeds L_RuleProps L_DiscoveryEx L_GenomeProps.
Notation ML := mean_learner.

(* discovery: the k-th call answers with entry k of a script *)
Definition scripted_d (s : nat -> res (list (rule ML))) : discovery ML :=
  mkDiscovery nat (fun _ => Ok 0%nat) (fun _ _ _ _ _ _ d => (s d, (0%nat, S d))).
(* composition: the k-th call answers s k; the elitist selects every rule of the pool and has fitness f k *)
Definition elite_of (f : num) (n : nat) : solution := mkSolution (repeat true n) (mkMixing KeepAll ExpAsIs 1) (mkSatts 0 n n f).
Definition scripted_c (s : nat -> res unit) (f : nat -> num) : composition ML :=
  mkComposition (nat * option solution) (Ok (0%nat, None))
    (fun _ _ _ pool _ c => (s (fst c), (S (fst c), match s (fst c) with Ok _ => Some (elite_of (f (fst c)) (length pool)) | _ => snd c end)))
    (fun c => Ok (snd c))
    (fun _ => Ok []).
Definition silent : logger ML := mkLogger unit (Ok tt) (fun _ _ _ _ _ _ _ => Ok tt) (fun _ _ _ _ _ => Ok tt).
(* each call finds one rule *)
Definition finds : discovery ML := scripted_d (fun _ => Ok [on_data dx dyy 0 2]).
Definition works : composition ML := scripted_c (fun _ => Ok tt) (fun _ => Fin 1).
Definition par n_iter n_init n_rules seed patience delta : params := mkParams n_iter n_init n_rules seed patience delta.
Definition par1 := par 3 0 1 (IntSeed 7) (-1) 0.

Lemma scripted_ready s cs f p : seedable (random_state p) -> ready (scripted_d s) (scripted_c cs f) silent p dx dyy.
Proof.
  intros H. split; [|split; [exact H|split; [eexists; reflexivity|split; eexists; reflexivity]]].
  split; [exists 1%nat; split; [discriminate|split; [discriminate|repeat constructor]]|reflexivity].
Qed.
Lemma silent_quiet : quiet silent.
Proof. split; [eexists; reflexivity|]. split; intros; eexists; reflexivity. Qed.
Lemma scripted_starts cs f : starts_empty (scripted_c cs f).
Proof. intros c H. injection H as <-. reflexivity. Qed.
(* a discovery that keeps to the number asked for *)
Definition finds_n : discovery ML :=
  mkDiscovery nat (fun _ => Ok 0%nat) (fun _ _ _ _ n _ d => (Ok (repeat (on_data dx dyy 0 2) n), (1%nat, S d))).
Lemma finds_n_modest : modest finds_n.
Proof. intros X y pool el n s d rs HE. cbn in HE. injection HE as <-. rewrite repeat_length. lia. Qed.
Lemma finds_n_ready cs f p : seedable (random_state p) -> ready finds_n (scripted_c cs f) silent p dx dyy.
Proof.
  intros H. split; [|split; [exact H|split; [eexists; reflexivity|split; eexists; reflexivity]]].
  split; [exists 1%nat; split; [discriminate|split; [discriminate|repeat constructor]]|reflexivity].
Qed.
(* the second call fails *)
Definition breaks : discovery ML := scripted_d (fun k => if Nat.eqb k 1 then Raise ValueError else Ok [on_data dx dyy 0 2]).

(* ----- witnesses: computed facts only, never whole states ----- *)
Lemma ended {A B} (o : res A * B) r : fst o = r -> o = (r, snd o).
Proof. destruct o. cbn. congruence. Qed.
Definition run (D : discovery ML) (C : composition ML) p := fit p 0 false dx dyy (unfitted (recorded_d D) (recorded_c C) silent).
Definition end_of D C p := snd (run D C p).
Lemma ran_to D C p r : fst (run D C p) = r -> fit p 0 false dx dyy (unfitted (recorded_d D) (recorded_c C) silent) = (r, end_of D C p).
Proof. apply ended. Qed.
Definition from {D : discovery ML} {C : composition ML} p (e : est D C silent) := snd (fit p 0 false dx dyy e).
Lemma ran_from {D : discovery ML} {C : composition ML} p (e : est D C silent) r : fst (fit p 0 false dx dyy e) = r -> fit p 0 false dx dyy e = (r, from p e).
Proof. apply ended. Qed.
Lemma zero_iterations : exists (L : learner) (D : discovery L) (C : composition L) (G : logger L) p X y e',
  ready D C G p X y /\ quiet G /\ starts_empty C /\ fit p 0 false X y (unfitted (recorded_d D) (recorded_c C) G) = (Raise AttributeError, e').
Proof.
  exists ML, finds, works, silent, (par 0 0 1 NoSeed (-1) 0), dx, dyy, (end_of finds works (par 0 0 1 NoSeed (-1) 0)). split; [apply scripted_ready; exact I|].
  split; [apply silent_quiet|]. split; [apply scripted_starts|]. apply ran_to. vm_compute. reflexivity.
Qed.
(* no call in the record raised *)
Definition calm {D C} (e : est (recorded_d D) (recorded_c C) silent) : bool :=
  forallb (fun c => match d_out c with Ok _ => true | _ => false end) (dcalls e) && forallb (fun c => match c_out c with Ok _ => true | _ => false end) (ccalls e).
Lemma calm_ok {D C} (e : est (recorded_d D) (recorded_c C) silent) : calm e = true -> ~ some_call_raised e.
Proof.
  intros H. unfold calm in H. apply andb_prop in H as [H1 H2]. rewrite forallb_forall in H1, H2.
  intros [(c & HC & x & HX)|(c & HC & x & HX)]; [specialize (H1 c HC)|specialize (H2 c HC)]; rewrite HX in *; discriminate.
Qed.
Lemma no_rules_asked : exists (L : learner) (D : discovery L) (C : composition L) (G : logger L) p X y e',
  ready D C G p X y /\ quiet G /\ starts_empty C /\ (0 < n_iter p)%nat /\
  fit p 0 false X y (unfitted (recorded_d D) (recorded_c C) G) = (Ok tt, e') /\ is_error e' = true /\ ~ some_call_raised e'.
Proof.
  exists ML, finds, works, silent, (par 2 0 0 NoSeed (-1) 0), dx, dyy, (end_of finds works (par 2 0 0 NoSeed (-1) 0)). split; [apply scripted_ready; exact I|].
  split; [apply silent_quiet|]. split; [apply scripted_starts|]. split; [cbn; lia|]. split; [apply ran_to; vm_compute; reflexivity|]. split; [vm_compute; reflexivity|].
  apply calm_ok. vm_compute. reflexivity.
Qed.
(* the initial discovery and the first step are given the same stream *)
Lemma nth_seeds (calls : list (dcall ML)) k s : nth_error (map d_seed calls) k = Some s -> exists c, nth_error calls k = Some c /\ d_seed c = s.
Proof. rewrite nth_error_map. destruct (nth_error calls k) as [c|]; [|discriminate]. cbn. intros H. injection H as <-. eauto. Qed.
Lemma initial_shares : exists (L : learner) (D : discovery L) (C : composition L) (G : logger L) p X y e' c0 c1,
  ready D C G p X y /\ fit p 0 false X y (unfitted (recorded_d D) (recorded_c C) G) = (Ok tt, e') /\ is_error e' = false /\
  nth_error (dcalls e') 0 = Some c0 /\ nth_error (dcalls e') 1 = Some c1 /\ d_seed c0 = d_seed c1.
Proof.
  exists ML, finds, works, silent, (par 2 1 1 (IntSeed 7) (-1) 0), dx, dyy, (end_of finds works (par 2 1 1 (IntSeed 7) (-1) 0)).
  destruct (nth_seeds (dcalls (end_of finds works (par 2 1 1 (IntSeed 7) (-1) 0))) 0 (mkSeed (mkStream 7 [0%nat]) 0)) as (c0 & H0 & H0'); [vm_compute; reflexivity|].
  destruct (nth_seeds (dcalls (end_of finds works (par 2 1 1 (IntSeed 7) (-1) 0))) 1 (mkSeed (mkStream 7 [0%nat]) 0)) as (c1 & H1 & H1'); [vm_compute; reflexivity|].
  exists c0, c1. split; [apply scripted_ready; cbn; lia|].
  split; [apply ran_to; vm_compute; reflexivity|]. split; [vm_compute; reflexivity|]. split; [exact H0|]. split; [exact H1|]. congruence.
Qed.
(* a discovery whose result shows the stream it was given: the upper bound of the rule is the last number of the key *)
Definition shows : discovery ML :=
  mkDiscovery nat (fun _ => Ok 0%nat) (fun X y _ _ n s d => (Ok (repeat (on_data X y 0 (qofnat (last (skey (sstream s)) 0%nat))) n), (0%nat, S d))).
Lemma shows_ready cs f p : seedable (random_state p) -> ready shows (scripted_c cs f) silent p dx dyy.
Proof.
  intros H. split; [|split; [exact H|split; [eexists; reflexivity|split; eexists; reflexivity]]].
  split; [exists 1%nat; split; [discriminate|split; [discriminate|repeat constructor]]|reflexivity].
Qed.
(* the same call twice on the same object, with an integer seed: different pools *)
Definition twice_p := par 2 1 1 (IntSeed 7) (-1) 0.
Definition twice1 := from twice_p (unfitted shows works silent).
Definition twice2 := from twice_p twice1.
Lemma second_fit_differs : exists (L : learner) (D : discovery L) (C : composition L) (G : logger L) p X y e1 e2,
  ready D C G p X y /\ (exists v, random_state p = IntSeed v) /\ (0 < n_iter p)%nat /\
  fit p 0 false X y (unfitted D C G) = (Ok tt, e1) /\ fit p 0 false X y e1 = (Ok tt, e2) /\
  is_error e1 = false /\ is_error e2 = false /\ pool e1 <> pool e2.
Proof.
  exists ML, shows, works, silent, twice_p, dx, dyy, twice1, twice2. split; [apply shows_ready; cbn; lia|]. split; [eexists; reflexivity|].
  split; [cbn; lia|]. split; [apply ran_from; vm_compute; reflexivity|]. split; [apply ran_from; vm_compute; reflexivity|]. split; [vm_compute; reflexivity|]. split; [vm_compute; reflexivity|].
  intros H. apply (f_equal (map (fun r => bnd (cond r)))) in H. vm_compute in H. discriminate.
Qed.
(* fewer iterations in the second call: it ends in the error state although no component failed *)
Definition stale_p1 := par 3 1 1 (IntSeed 7) (-1) 0.
Definition stale_p2 := par 2 1 1 (IntSeed 7) (-1) 0.
Definition stale2 := from stale_p2 (end_of finds works stale_p1).
Lemma stale_step : exists (L : learner) (D : discovery L) (C : composition L) (G : logger L) p1 p2 X y e1 e2,
  ready D C G p1 X y /\ ready D C G p2 X y /\ quiet G /\ starts_empty C /\ (0 < n_iter p2)%nat /\ (0 < n_rules p2)%nat /\
  fit p1 0 false X y (unfitted (recorded_d D) (recorded_c C) G) = (Ok tt, e1) /\ is_error e1 = false /\
  fit p2 0 false X y e1 = (Ok tt, e2) /\ is_error e2 = true /\ ~ some_call_raised e2.
Proof.
  exists ML, finds, works, silent, stale_p1, stale_p2, dx, dyy, (end_of finds works stale_p1), stale2. split; [apply scripted_ready; cbn; lia|]. split; [apply scripted_ready; cbn; lia|].
  split; [apply silent_quiet|]. split; [apply scripted_starts|]. split; [cbn; lia|]. split; [cbn; lia|].
  split; [apply ran_to; vm_compute; reflexivity|]. split; [vm_compute; reflexivity|]. split; [apply ran_from; vm_compute; reflexivity|]. split; [vm_compute; reflexivity|].
  apply calm_ok. vm_compute. reflexivity.
Qed.

(* ----- early stopping ----- *)
Definition fitness_of (c : ccall ML) : option num := match c_best c with Ok (Some b) => Some (sfitness (smeasured b)) | _ => None end.
Lemma fitnesses (calls : list (ccall ML)) : forall fs, map fitness_of calls = map Some fs -> Forall2 elite_fitness calls fs.
Proof.
  induction calls as [|c calls IH]; intros [|f fs] H; try discriminate; constructor; cbn in H; injection H as H1 H2.
  - unfold fitness_of in H1. destruct (c_best c) as [[b|]|x] eqn:EB; try discriminate. injection H1 as <-. exists b. auto.
  - apply IH. auto.
Qed.
Definition es_p := par 5 0 1 (IntSeed 7) 2 (1#2).
(* a fitness that never changes, above delta: learning goes on to the end *)
Lemma stagnating_goes_on : exists (L : learner) (D : discovery L) (C : composition L) (G : logger L) p X y e' fs k,
  ready D C G p X y /\ (0 < patience p)%Z /\ fit p 0 false X y (unfitted (recorded_d D) (recorded_c C) G) = (Ok tt, e') /\ is_error e' = false /\
  Forall2 elite_fitness (ccalls e') fs /\ length fs = n_iter p /\ (k < length fs)%nat /\ stagnates (delta p) (Z.to_nat (patience p)) (firstn k fs).
Proof.
  exists ML, finds, works, silent, es_p, dx, dyy, (end_of finds works es_p), (repeat (Fin 1) 5), 3%nat. split; [apply scripted_ready; cbn; lia|]. split; [cbn; lia|].
  split; [apply ran_to; vm_compute; reflexivity|]. split; [vm_compute; reflexivity|]. split; [apply fitnesses; vm_compute; reflexivity|]. split; [reflexivity|]. split; [cbn; lia|].
  exists [(Fin 0, Fin 1)], [(Fin 1, Fin 1); (Fin 1, Fin 1)]. split; [reflexivity|]. split; [reflexivity|]. repeat constructor.
Qed.
(* a fitness that grows by more than delta each time, but is negative: learning is cut off *)
Definition growing : composition ML := scripted_c (fun _ => Ok tt) (fun k => Fin (qofnat k - 10)).
Lemma improving_cut_off : exists (L : learner) (D : discovery L) (C : composition L) (G : logger L) p X y e' fs,
  ready D C G p X y /\ (0 < patience p)%Z /\ fit p 0 false X y (unfitted (recorded_d D) (recorded_c C) G) = (Ok tt, e') /\ is_error e' = false /\
  Forall2 elite_fitness (ccalls e') fs /\ (length fs < n_iter p)%nat /\ ~ stagnates (delta p) (Z.to_nat (patience p)) fs.
Proof.
  exists ML, finds, growing, silent, es_p, dx, dyy, (end_of finds growing es_p), [Fin (-10); Fin (-9)].
  split; [apply scripted_ready; cbn; lia|]. split; [cbn; lia|].
  split; [apply ran_to; vm_compute; reflexivity|]. split; [vm_compute; reflexivity|]. split; [apply fitnesses; vm_compute; reflexivity|]. split; [cbn; lia|].
  intros (b & t & HE & HL & HF). assert (HB : b = []) by (apply (f_equal (@length _)) in HE; rewrite app_length, HL in HE; cbn in HE; destruct b; [auto|cbn in HE; lia]).
  subst b. cbn in HE. subst t. inversion HF as [|? ? _ HF2]; subst. inversion HF2 as [|? ? HF3 _]; subst. vm_compute in HF3. discriminate.
Qed.
