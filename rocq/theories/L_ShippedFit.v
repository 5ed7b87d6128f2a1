(* Whole fit calls with the library's components. *)
From Coq Require Import Lia.
From Verif Require Import PyNum PyList PyMon PyRng L_Num L_List L_Rng M_Matching S_Matching M_Rule S_Rule M_RuleGen M_Mixing M_Discovery S_Discovery L_Discovery L_DiscoveryProps L_Origin
  M_Novelty S_Novelty L_NoveltyRun M_Solution S_Solution L_Heap L_HeapProps M_Composition S_Composition L_Safe L_SafeFit L_Composition L_History L_GenomeProps L_SasProps L_SwarmProps S_Optimizers L_Shipped
  M_Fit S_Fit L_Fit L_FitProps L_FitInv M_Shipped S_Shipped.

(* ----- discovery ----- *)
Section Discovery.
Variables (L : learner) (rngof : stream -> rng) (X : matrix) (y : targets) (d : nat).
Hypothesis HT : table d X y.
Definition kept (a : acceptance) (r : rule L) : Prop := fitted_on X y r /\ matches_some X r /\ passes a y r.

Lemma bounds_dim bs : estimate_bounds X = Ok bs -> length bs = d.
Proof. intros H. exact (estimate_bounds_len L (mkDenv X y [] None (mkMixing KeepAll ExpAsIs 1)) d HT bs H). Qed.
Lemma init_bounds_dim k k' : given_dim d k -> init_bounds X k = Ok k' -> space_dim d k'.
Proof.
  intros HG H. unfold init_bounds in H. destruct (estimate_bounds X) as [bs|x] eqn:E; [|discriminate]. cbn [rbind] in H. injection H as <-.
  apply bounds_dim in E. destruct k as [[b|]|mr|mr [b|]]; cbn in *; auto.
Qed.
(* what a discovery keeps true of the pool and its state *)
Lemma library_keeps D k a : library_discovery L rngof D k a -> X <> [] -> usable a -> given_dim d k -> (forall m e, exists q, rfitness L m e = Fin q) ->
  exists Dinv : list (rule L) -> dst D -> Prop,
    (forall s, dnew D X = Ok s -> Dinv [] s) /\
    (forall pool el n s st new j st', Dinv pool st -> drun D X y pool el n s st = (Ok new, (j, st')) ->
       (length new <= n)%nat /\ Forall (kept a) new /\ Dinv (pool ++ new) st').
Proof.
  intros HD HX HU HG HF. destruct HD as [c k|c k|c k Ht].
  - exists (fun _ c' => space_dim d (d_constraint (es_d c')) /\ d_accept (es_d c') = d_accept (es_d c)). split.
    + intros s H. cbn [dnew es_discovery] in H. destruct (es_new c) as [c1|x] eqn:E1; [|discriminate]. cbn [rbind] in H.
      destruct (init_bounds X k) as [k'|x] eqn:E2; [|discriminate]. cbn [rbind] in H. injection H as <-. cbn.
      split; [eapply init_bounds_dim; eauto|]. unfold es_new in E1. destruct (es_operator c); try (injection E1 as <-; reflexivity).
      destruct (assert_ _); [|discriminate]. injection E1 as <-. reflexivity.
    + intros pool el n s st new j st' [HS HA] H. cbn [drun es_discovery] in H. injection H as H _ <-.
      destruct (es_optimize st _ n _ _) as [r g'] eqn:E. cbn [fst] in H. subst r. rewrite <- HA in HU.
      destruct (es_optimize_accepted L (discovery_env X y pool el) d HT st HS n _ _ _ _ HU E) as [H1 H2]. split; auto. split; auto.
      rewrite HA in H2. exact H2.
  - exists (fun _ c' => space_dim d (d_constraint (rs_d c')) /\ d_accept (rs_d c') = d_accept (rs_d c)). split.
    + intros s H. cbn [dnew rs_discovery] in H. destruct (init_bounds X k) as [k'|x] eqn:E2; [|discriminate]. cbn [rbind] in H. injection H as <-. cbn.
      split; [eapply init_bounds_dim; eauto|reflexivity].
    + intros pool el n s st new j st' [HS HA] H. cbn [drun rs_discovery] in H. injection H as H _ <-.
      destruct (rs_optimize st _ n _) as [r g'] eqn:E. cbn [fst] in H. subst r. rewrite <- HA in HU.
      destruct (rs_optimize_accepted L (discovery_env X y pool el) d HT st n _ _ _ HS HU E) as [H1 H2]. split; auto. split; auto.
      rewrite HA in H2. exact H2.
  - exists (fun pool (z : nscfg * list (cell L)) => space_dim d (d_constraint (ns_d (fst z))) /\ d_accept (ns_d (fst z)) = d_accept (ns_d c) /\ ns_type (fst z) = ns_type c /\ Forall (searched d X y) (snd z)). split.
    + intros s H. cbn [dnew ns_discovery] in H. destruct (ns_new c) as [c1|x] eqn:E1; [|discriminate]. cbn [rbind] in H.
      destruct (init_bounds X k) as [k'|x] eqn:E2; [|discriminate]. cbn [rbind] in H. injection H as <-. cbn.
      unfold ns_new in E1. destruct (assert_ _); [|discriminate]. injection E1 as <-.
      split; [eapply init_bounds_dim; eauto|]. auto.
    + intros pool el n s [c' cs] new j st' (HS & HA & Hty & HC) H. cbn [drun ns_discovery fst snd] in *.
      destruct (ns_optimize c' X y cs _ _ n _) as [r g'] eqn:E. cbn [fst] in H. destruct r as [out|x]; [|discriminate]. injection H as <- _ <-.
      rewrite <- HA in HU. rewrite <- Hty in Ht.
      destruct (ns_optimize_accepted L c' d X y cs _ _ n _ out g' HT HX HF HS HU Ht HC E) as [H1 H2].
      split; [rewrite map_length; exact H1|]. rewrite HA in H2. split.
      * apply Forall_map. revert H2. apply Forall_impl. intros x ((A & _) & _ & B & C). split; [exact A|split; [exact B|exact C]].
      * cbn [fst snd]. split; auto. split; auto. split; auto. apply Forall_app. split; auto. revert H2. apply Forall_impl. intros x (A & _). exact A.
Qed.
End Discovery.

(* ----- never more rules than asked for ----- *)
Lemma uniform_input_len X n g xs g' : uniform_input X n g = (Ok xs, g') -> length xs = n.
Proof.
  unfold uniform_input. intros H. apply bind_inv in H as (bs & g1 & _ & H). revert g1 xs g' H. induction n as [|n IH]; intros g1 xs g' H; [injection H as <- _; reflexivity|].
  apply bind_inv in H as (x & g2 & _ & H). apply bind_inv in H as (l & g3 & H1 & H). injection H as <- _. cbn. f_equal. eauto.
Qed.
Lemma origins_n {L} o (D : denv L) n g xs g' : origins o D n g = (Ok xs, g') -> length xs = n.
Proof.
  intros H. destruct o; [eapply uniform_input_len; exact H|..]; (apply origins_in in H; [tauto|discriminate]).
Qed.
Lemma rmap_len {A B} (f : A -> res B) l : forall out, rmap f l = Ok out -> length out = length l.
Proof.
  induction l as [|a l IH]; intros out H; cbn [rmap] in H; [injection H as <-; reflexivity|].
  destruct (f a) as [b|x]; [|discriminate]. cbn [rbind] in H. destruct (rmap f l) as [bs|x]; [|discriminate]. cbn [rbind] in H. injection H as <-. cbn. f_equal. auto.
Qed.
Lemma filter_invalid_len {L} a y : forall (rs out : list (rule L)), filter_invalid a y rs = Ok out -> (length out <= length rs)%nat.
Proof.
  induction rs as [|r rs IH]; intros out H; cbn [filter_invalid] in H; [injection H as <-; auto|].
  destruct (accept a r y) as [b|x]; [|discriminate]. cbn [rbind] in H. destruct (filter_invalid a y rs) as [o|x]; [|discriminate]. cbn [rbind] in H.
  injection H as <-. pose proof (IH o eq_refl). destruct b; cbn; lia.
Qed.
Lemma repeat_m_len {A} (m : St rng (list A)) k : (forall g l g', m g = (Ok l, g') -> (length l <= k)%nat) ->
  forall n g out g', repeat_m n m g = (Ok out, g') -> (length (concat out) <= n * k)%nat.
Proof.
  intros HM. induction n as [|n IH]; intros g out g' H; cbn [repeat_m] in H; [injection H as <- _; cbn; lia|].
  apply bind_inv in H as (x & g1 & H1 & H). apply bind_inv in H as (xs & g2 & H2 & H). injection H as <- _. cbn [concat]. rewrite app_length.
  apply HM in H1. apply IH in H2. cbn. lia.
Qed.
Lemma accepted_len {L} a y : forall (cs out : list (cell L)), accepted L a y cs = Ok out -> (length out <= length cs)%nat.
Proof.
  induction cs as [|r rs IH]; intros out H; cbn [accepted] in H; [injection H as <-; auto|].
  destruct (accept a (crule r) y) as [b|x]; [|discriminate]. cbn [rbind] in H. destruct (accepted L a y rs) as [o|x]; [|discriminate]. cbn [rbind] in H.
  injection H as <-. pose proof (IH o eq_refl). destruct b; cbn; lia.
Qed.
Lemma library_modest L rngof D k a : library_discovery L rngof D k a -> modest D.
Proof.
  intros HD X y pool el n s st out H. destruct HD as [c k|c k|c k Ht].
  - cbn [drun es_discovery fst] in H. destruct (es_optimize st _ n _ _) as [r g'] eqn:E. cbn [fst] in H. subst r. unfold es_optimize in E.
    apply bind_inv in E as (xs & g1 & HO & E). apply bind_inv in E as (ini & g2 & HI & E). apply bind_inv in E as (rs & g3 & HR & E).
    unfold lift in HR, E. injection HR as HR _. injection E as E _. apply filter_invalid_len in E. apply rmap_len in HR. apply mmap_len in HI. apply origins_n in HO.
    rewrite combine_length, map_length, seq_length in HR. lia.
  - cbn [drun rs_discovery fst] in H. destruct (rs_optimize st _ n _) as [r g'] eqn:E. cbn [fst] in H. subst r. unfold rs_optimize in E.
    apply bind_inv in E as (o & g1 & HO & E). unfold lift in E. injection E as E _. apply filter_invalid_len in E.
    apply (repeat_m_len _ 1) in HO; [lia|]. intros g l g'' H. unfold rs_one in H. apply bind_inv in H as (xs & g2 & _ & H). apply bind_inv in H as (rs & g3 & _ & H).
    apply pick_in in H as [_ H]. exact H.
  - cbn [drun ns_discovery fst] in H. destruct st as [c' cs]. cbn [fst snd] in H. destruct (ns_optimize c' X y cs _ _ n _) as [r g'] eqn:E. cbn [fst] in H.
    destruct r as [o|x]; [|discriminate]. injection H as <-. rewrite map_length. unfold ns_optimize in E. set (DD := mkDenv X y (map crule cs) _ _) in *.
    destruct (ns_run c' DD n _) as [r s1] eqn:E1. injection E as -> _. unfold ns_run in E1. apply bind_inv in E1 as (pop & s2 & _ & E1).
    apply bind_inv in E1 as (best & s3 & _ & E1). apply bind_inv in E1 as (out & s4 & H1 & E1). unfold lift in E1. injection E1 as E1 _. apply accepted_len in E1.
    apply mmap_len in H1. rewrite firstn_length in H1. lia.
Qed.

(* ----- composition ----- *)
Section Composition.
Variables (L : learner) (rngof : stream -> rng) (K : skind) (O : optimizer K) (i : ostate O) (cc : ccfg) (mix : mixing) (f : nat -> Q -> nat -> nat -> num).
Notation C := (shipped_composition L rngof O i cc mix f).
Variables (X : matrix) (y : targets) (M : nat).
Notation env_of pool := (step_env mix f X y M pool).
Variable Iok : ostate O -> nat -> Prop.
Hypothesis HO : contract O Iok.
Hypothesis HI : Iok i 0%nat.

Definition settledc (pool : list (rule L)) (z : comp O * hst K) : Prop :=
  cinv Iok (length pool) (snd z) (fst z) /\ (carchive cc = false -> carch (fst z) = []) /\
  (Forall (honest (env_of pool) (snd z)) (cpop (fst z) ++ carch (fst z))).
Definition growingc (pool : list (rule L)) (z : comp O * hst K) : Prop :=
  exists m, (m <= length pool)%nat /\ cinv Iok m (snd z) (fst z) /\ (carchive cc = false -> carch (fst z) = []).
Lemma start_settled c : cnew C = Ok c -> settledc [] c.
Proof. cbn [cnew shipped_composition]. intros H. injection H as <-. split; [apply fresh_cinv; exact HI|]. split; [reflexivity|constructor]. Qed.
Lemma settled_growing pool new z : settledc pool z -> growingc (pool ++ new) z.
Proof. intros (H1 & H2 & _). exists (length pool). rewrite app_length. split; [lia|auto]. Qed.
Lemma start_again pool c : growingc pool c -> cnew C = Ok c -> settledc pool c.
Proof.
  cbn [cnew shipped_composition]. intros _ H. injection H as <-. split; [|split; [reflexivity|constructor]].
  apply fresh_cinv. destruct HO as [Hm _]. eapply Hm; [exact HI|lia].
Qed.
Lemma step_settles pool s z z' : growingc pool z -> crun C X y M pool s z = (Ok tt, z') -> settledc pool z'.
Proof.
  intros (m & Hm & HC & HA) H. cbn [crun shipped_composition] in H.
  pose proof (optimize_step (env_of pool) O Iok (contract_at _ O Iok HO) cc m (rngof (sstream s)) (fst z) (snd z) HC Hm HA) as HS.
  destruct (optimize O cc (env_of pool) (rngof (sstream s)) (fst z) (snd z)) as [[st|x] h]; [|discriminate]. injection H as <-.
  destruct HS as (H1 & H2 & H3 & H4 & _). split; [exact H1|]. split; [exact H4|]. apply Forall_app. auto.
Qed.
(* the elitist the estimator reads *)
Lemma read_settled pool z b : settledc pool z -> cbest C z = Ok (Some b) ->
  length (sbits b) = length pool /\ smix b = mix /\ exists g g', sol_fit L mix (f M) (sbits b) pool X y g = (Ok (smeasured b), g').
Proof.
  intros (_ & _ & HH) H. cbn [cbest shipped_composition] in H. unfold read_elitist in H.
  destruct (bind _ _ (snd z)) as [r h] eqn:E. cbn [fst] in H. subst r. apply bind_inv in E as (o & s1 & E1 & E).
  destruct o as [r|]; [|discriminate]. pose proof (elitist_pure _ _ _ _ _ E1). subst s1.
  apply bind_inv in E as (bits & s2 & E2 & E). apply bind_inv in E as (a & s3 & E3 & E). injection E as <- _. cbn [sbits smix smeasured].
  unfold M_Composition.elitist in E1. destruct (cpop (fst z)) as [|x l] eqn:EP; [discriminate|]. apply bind_inv in E1 as (w & s4 & E4 & E1). injection E1 as <- _.
  apply fittest_eq in E4 as (-> & HIn & _). rewrite Forall_forall in HH. destruct (HH _ HIn) as (b0 & a0 & g & g' & (ob & Ho & Hb & Ha) & HL & HF).
  unfold genome, bind, get_sol, get_arr in E2. rewrite Ho in E2. cbn [of_option] in E2. rewrite Hb in E2. injection E2 as <- <-.
  unfold get_satt, bind, get_sol, lift in E3. rewrite Ho in E3. cbn [of_option] in E3. rewrite Ha in E3. injection E3 as <- _.
  split; [exact HL|]. split; [reflexivity|]. exists g, g'. exact HF.
Qed.
Lemma shipped_starts_empty : starts_empty C.
Proof. intros c H. cbn [cnew shipped_composition] in H. injection H as <-. reflexivity. Qed.
End Composition.

(* ----- the learned model ----- *)
Lemma library_sound L rngof (D : discovery L) k a K (O : optimizer K) i cc mix f (G : logger L) p os X y d (e e' : est D (shipped_composition L rngof O i cc mix f) G) :
  library_discovery L rngof D k a -> shipped O i -> table d X y -> X <> [] -> usable a -> given_dim d k -> (forall m x, exists q, rfitness L m x = Fin q) ->
  fit p os false X y e = (Ok tt, e') -> is_error e' = false ->
  Forall (fun r => fitted_on X y r /\ matches_some X r /\ passes a y r) (pool e') /\
  exists b, elitist e' = Some (Learned b) /\ epool b = pool e' /\ emix b = mix /\ length (ebits b) = length (pool e') /\
    exists g g', sol_fit L mix (f (n_rules p * n_iter p + n_initial p)%nat) (ebits b) (pool e') X y g = (Ok (eatt b), g').
Proof.
  intros HL HS HT HX HU HG HF H HE. destruct (shipped_contract O i HS) as (Iok & HC & HI).
  destruct (library_keeps L rngof X y d HT D k a HL HX HU HG HF) as (Dinv & HD0 & HD1).
  set (M := (n_rules p * n_iter p + n_initial p)%nat).
  destruct (fit_holds L D (shipped_composition L rngof O i cc mix f) G p X y
    (fun pool d c => Forall (kept L X y a) pool /\ Dinv pool d /\ settledc L K O cc mix f X y M Iok pool c)
    (fun pool d c => Forall (kept L X y a) pool /\ Dinv pool d /\ growingc L K O cc Iok pool c)) with (os := os) (e := e) (e' := e')
    as (dd & c & s & _ & _ & (H1 & _ & H2) & H3 & H4); auto.
  - intros d0 c0 Hd Hc. split; [constructor|]. split; [auto|]. eapply start_settled; eauto.
  - intros pool d0 c0 el n s new j d' (A & B & C0) _ _ HR. destruct (HD1 _ _ _ _ _ _ _ _ B HR) as (_ & R1 & R2). split; [apply Forall_app; auto|]. split; auto.
    eapply settled_growing; eauto.
  - intros pool d0 c0 s c' (A & B & C0) HR. split; auto. split; auto. eapply step_settles; eauto.
  - intros pool d0 c0 (A & B & C0) HN. split; auto. split; auto. eapply start_again; eauto.
  - split; [exact H1|]. exists (with_pool (pool e') s). destruct (read_settled L rngof K O i cc mix f X y M Iok (pool e') c s H2 H3) as (R1 & R2 & R3).
    split; auto.
Qed.

(* ----- every composition step leaves an elitist, if there is an archive ----- *)
Lemma pymax_some {A} lt (l : list A) : l <> [] -> exists x, pymax lt l = Some x.
Proof. destruct l as [|a l]; [congruence|]. intros _. unfold pymax. eauto. Qed.
Lemma fittest_ok {K} (s : hst K) rs : rs <> [] -> Forall (fun r => exists f, has_fit s r f) rs -> exists r, fittest rs s = (Ok r, s) /\ In r rs.
Proof.
  intros HN HF. destruct (keyed_total s rs HF) as (ks & HK & HM & _). destruct (pymax_some key_lt ks) as (k & Hk).
  { intros ->. cbn in HM. congruence. }
  assert (HE : fittest rs s = (Ok (snd k), s)). { unfold fittest. rewrite (bind_ok _ _ _ _ _ HK). unfold lift, bind. rewrite Hk. reflexivity. }
  exists (snd k). split; [exact HE|]. apply fittest_eq in HE as (_ & H & _). exact H.
Qed.
Lemma honest_shows {K L} (E : env L) (s : hst K) r : honest E s r -> exists bits a, shows s r bits (Some a).
Proof. intros (b & a & _ & _ & H & _). eauto. Qed.
Lemma honest_has_fit {K L} (E : env L) (s : hst K) r : honest E s r -> exists f, has_fit s r f.
Proof. intros H. destruct (honest_shows _ _ _ H) as (b & a & HS). exists (sfitness a), b, a. auto. Qed.
Lemma archived_nonempty {K L} (O : optimizer K) c (E : env L) g st s st' s' : carchive c = true -> optimize O c E g st s = (Ok st', s') -> cpop st' <> [].
Proof.
  intros HC H. unfold optimize in H. apply bind_inv in H as (? & ? & _ & H). apply bind_inv in H as (pop & ? & _ & H). apply bind_inv in H as (? & ? & _ & H).
  apply bind_inv in H as ([pop' i'] & s2 & _ & H). rewrite HC in H. apply bind_inv in H as (ar & s3 & H1 & H). injection H as <- _. cbn [cpop].
  apply bind_inv in H1 as (a & s4 & H1 & _). unfold archive_call in H1. apply bind_inv in H1 as (b & s5 & H1 & _). apply fittest_eq in H1 as (_ & H1 & _).
  intros ->. destruct H1.
Qed.
Section Delivered.
Variables (L : learner) (rngof : stream -> rng) (K : skind) (O : optimizer K) (i : ostate O) (cc : ccfg) (mix : mixing) (f : nat -> Q -> nat -> nat -> num).
Notation C := (shipped_composition L rngof O i cc mix f).
Variables (X : matrix) (y : targets) (M : nat).
Variable Iok : ostate O -> nat -> Prop.
Hypothesis HO : contract O Iok.
Hypothesis HI : Iok i 0%nat.
Lemma read_ok pool z : settledc L K O cc mix f X y M Iok pool z -> cpop (fst z) <> [] -> exists b, cbest C z = Ok (Some b).
Proof.
  intros (_ & _ & HH) HN. cbn [cbest shipped_composition]. unfold read_elitist.
  destruct (fittest_ok (snd z) (cpop (fst z) ++ carch (fst z))) as (r & HR & HIn).
  { intros E. apply app_eq_nil in E as [E _]. congruence. }
  { revert HH. apply Forall_impl. intros r. apply honest_has_fit. }
  assert (HE : M_Composition.elitist (fst z) (snd z) = (Ok (Some r), snd z)).
  { unfold M_Composition.elitist. destruct (cpop (fst z)); [congruence|]. rewrite (bind_ok _ _ _ _ _ HR). reflexivity. }
  rewrite Forall_forall in HH. destruct (honest_shows _ _ _ (HH _ HIn)) as (b & a & o & Ho & Hb & Ha).
  rewrite (bind_ok _ _ _ _ _ HE). unfold genome, bind, get_sol, get_arr, get_satt, lift.
  unfold ret. repeat (first [rewrite Ho|rewrite Hb|rewrite Ha]; cbn). eauto.
Qed.
Lemma step_raises pool s z x z' : growingc L K O cc Iok pool z -> crun C X y M pool s z = (Raise x, z') -> x <> AssertionError /\ x <> Dangling.
Proof.
  intros (m & Hm & HC & HA) H. cbn [crun shipped_composition] in H.
  pose proof (optimize_step (step_env mix f X y M pool) O Iok (contract_at _ O Iok HO) cc m (rngof (sstream s)) (fst z) (snd z) HC Hm HA) as HS.
  destruct (optimize O cc _ (rngof (sstream s)) (fst z) (snd z)) as [[st|e] h]; [discriminate|]. injection H as <- _. unfold bad in HS. tauto.
Qed.
Lemma step_delivers pool s z z' : carchive cc = true -> growingc L K O cc Iok pool z -> crun C X y M pool s z = (Ok tt, z') -> exists b, cbest C z' = Ok (Some b).
Proof.
  intros HA HG H. pose proof (step_settles L rngof K O i cc mix f X y M Iok HO pool s z z' HG H) as HS.
  apply (read_ok pool); auto. cbn [crun shipped_composition] in H.
  destruct (optimize O cc _ (rngof (sstream s)) (fst z) (snd z)) as [[st|e] h] eqn:E; [|discriminate]. injection H as <-. cbn [fst]. eapply archived_nonempty; eauto.
Qed.
End Delivered.

(* what is true of every call, however fit ends *)
Lemma shipped_calls L rngof (D : discovery L) K (O : optimizer K) i cc mix f (G : logger L) p os X y
  (e : est (recorded_d D) (recorded_c (shipped_composition L rngof O i cc mix f)) G) r e' :
  shipped O i -> ready D (shipped_composition L rngof O i cc mix f) G p X y -> fit p os false X y e = (r, e') ->
  Forall elite_fits (dcalls e') /\ Forall (sound_step mix f X y) (ccalls e') /\ (carchive cc = true -> Forall delivered (ccalls e')).
Proof.
  intros HS (HG & HSd & (d & Hd) & (c & Hc) & (l & Hl)) H. destruct (shipped_contract O i HS) as (Iok & HC & HI).
  set (M := (n_rules p * n_iter p + n_initial p)%nat).
  pose proof (fit_called L D (shipped_composition L rngof O i cc mix f) G p X y
    (fun pool d c => settledc L K O cc mix f X y M Iok pool c) (fun pool d c => growingc L K O cc Iok pool c)
    elite_fits (fun c => sound_step mix f X y c /\ (carchive cc = true -> delivered c))) as HF.
  assert (HA : called L D (shipped_composition L rngof O i cc mix f) G elite_fits (fun c => sound_step mix f X y c /\ (carchive cc = true -> delivered c)) (snd (fit p os false X y e))).
  { apply (HF) with (d := d) (c := c) (l := l); auto; clear HF.
    - intros d0 c0 _ HN. eapply start_settled; eauto.
    - intros pool d0 c0 el n s r0 k d' HP _ HB HR. split.
      + unfold elite_fits. cbn [d_elite d_pool]. destruct el as [b|]; [|exact I]. cbn.
        destruct (read_settled L rngof K O i cc mix f X y M Iok pool c0 b HP HB) as (R1 & _). exact R1.
      + intros new _. eapply settled_growing; eauto.
    - intros pool d0 c0 s r0 c' HP HR. split.
      + split.
        * unfold sound_step. cbn [c_out c_best c_pool c_max]. destruct r0 as [[]|x].
          { intros b Hb. pose proof (step_settles L rngof K O i cc mix f X y M Iok HC pool s c0 c' HP HR) as HP'.
            destruct (read_settled L rngof K O i cc mix f X y M Iok pool c' b HP' Hb) as (R1 & R2 & R3). auto. }
          { eapply step_raises; eauto. }
        * intros HA Hr. cbn [c_out c_best] in *. subst r0. eapply step_delivers; eauto.
      + intros ->. eapply step_settles; eauto.
    - intros pool d0 c0 HP HN. eapply start_again; eauto. }
  rewrite H in HA. cbn [snd] in HA. destruct HA as [H1 H2]. split; auto. split.
  - revert H2. apply Forall_impl. tauto.
  - intros HA. revert H2. apply Forall_impl. tauto.
Qed.

(* ----- the elitist never gets worse during one call of fit ----- *)
Lemma one_fit_snoc {L} (steps : list (env L * rng)) E g : one_fit steps -> (forall before E1 g1, steps = before ++ [(E1, g1)] -> extends E1 E) -> one_fit (steps ++ [(E, g)]).
Proof.
  induction steps as [|[E1 g1] steps IH]; intros H HX; [cbn; auto|]. cbn [app one_fit] in *. destruct H as [H1 H2]. split.
  - destruct steps as [|[E2 g2] steps]; [apply (HX [] E1 g1); reflexivity|exact H1].
  - apply IH; [exact H2|]. intros before E2 g2 HE. apply (HX ((E1, g1) :: before) E2 g2). rewrite HE. reflexivity.
Qed.
Section Worse.
Variables (L : learner) (rngof : stream -> rng) (K : skind) (O : optimizer K) (i : ostate O) (cc : ccfg) (mix : mixing) (f : nat -> Q -> nat -> nat -> num).
Notation C := (shipped_composition L rngof O i cc mix f).
Variables (X : matrix) (y : targets) (M : nat).
Notation env_of pool := (step_env mix f X y M pool).
Notation h0 := (mkH [] [] (mkRng (fun _ => 0) 0)).
Definition hist (calls : list (ccall L)) : list (env L * rng) := map (fun c => (env_of (c_pool c), rngof (sstream (c_seed c)))) calls.
Definition history (pool : list (rule L)) (z : (comp O * hst K) * list (ccall L)) : Prop :=
  compose O cc (hist (snd z)) (fresh_comp O i) h0 = (Ok (fst (fst z)), snd (fst z)) /\ one_fit (hist (snd z)) /\
  (forall before c, snd z = before ++ [c] -> exists new, pool = c_pool c ++ new) /\
  forall k c, nth_error (snd z) k = Some c -> exists st h, compose O cc (hist (firstn (S k) (snd z))) (fresh_comp O i) h0 = (Ok st, h) /\ c_best c = cbest C (st, h).
Lemma history_start c : cnew (recorded_c C) = Ok c -> history [] c.
Proof.
  cbn. intros H. injection H as <-. split; [reflexivity|]. split; [exact I|]. split; [intros before c H; destruct before; discriminate|].
  intros k c H. destruct k; discriminate.
Qed.
Lemma history_grow pool new z : history pool z -> history (pool ++ new) z.
Proof.
  intros (A & B & Cc & Dd). split; auto. split; auto. split; auto. intros before c H. destruct (Cc before c H) as (n1 & ->). exists (n1 ++ new). rewrite app_assoc. reflexivity.
Qed.
Lemma history_step pool s z z' : history pool z -> crun (recorded_c C) X y M pool s z = (Ok tt, z') -> history pool z'.
Proof.
  destruct z as [z calls]. intros (A & B & Cc & Dd) H. cbn [fst snd] in *. cbn [crun recorded_c fst snd] in H. destruct (crun C X y M pool s z) as [r c'] eqn:E. injection H as -> <-.
  cbn [fst snd]. set (cl := mkCcall pool M s (Ok tt) (cbest C c') (cpopulation C c')) in *.
  assert (HC : compose O cc (hist (calls ++ [cl])) (fresh_comp O i) h0 = (Ok (fst c'), snd c')).
  { unfold hist. rewrite map_app. cbn [map]. rewrite compose_app. unfold hist in A. rewrite (bind_ok _ _ _ _ _ A). cbn [compose].
    cbn [crun shipped_composition] in E. destruct (optimize O cc (env_of pool) (rngof (sstream s)) (fst z) (snd z)) as [[st|x] h] eqn:EO; [|discriminate].
    injection E as <-. cbn [c_pool c_seed cl fst snd]. rewrite (bind_ok _ _ _ _ _ EO). reflexivity. }
  split; [exact HC|]. split; [|split]; cbn [fst snd].
  - unfold hist. rewrite map_app. cbn [map]. apply one_fit_snoc; [exact B|]. intros before E1 g1 HB.
    destruct calls as [|c0 rest] using rev_ind; [destruct before; discriminate|]. rewrite map_app in HB. cbn [map] in HB. apply app_inj_tail in HB as [_ HB]. injection HB as <- _.
    destruct (Cc rest c0 eq_refl) as (new & Hn). unfold extends. cbn. split; [exists new; exact Hn|auto].
  - intros before c HB. apply app_inj_tail in HB as [_ <-]. exists []. cbn. rewrite app_nil_r. reflexivity.
  - intros k c Hk. apply nth_snoc in Hk as [[Hk Hlt]|[-> ->]].
    + rewrite firstn_snoc by lia. apply Dd. exact Hk.
    + exists (fst c'), (snd c'). rewrite firstn_all2 by (rewrite app_length; cbn; lia). split; [exact HC|]. destruct c'. reflexivity.
Qed.
Lemma read_fit st h b : cbest C (st, h) = Ok (Some b) -> exists r, M_Composition.elitist st h = (Ok (Some r), h) /\ has_fit h r (sfitness (smeasured b)).
Proof.
  cbn [cbest shipped_composition fst snd]. unfold read_elitist. intros H. destruct (bind _ _ h) as [r h'] eqn:E. cbn [fst] in H. subst r. apply bind_inv in E as (o & s1 & E1 & E).
  destruct o as [r|]; [|discriminate]. pose proof (elitist_pure _ _ _ _ _ E1). subst s1. exists r. split; [exact E1|].
  unfold genome, bind, get_sol, get_arr, get_satt, lift in E. destruct (nth_error (sols h) r) as [ob|] eqn:Ho; [|discriminate]. cbn in E.
  destruct (nth_error (garr h) (gref ob)) as [bits|] eqn:Hb; [|discriminate]. cbn in E. rewrite Ho in E. cbn in E.
  destruct (satt ob) as [a|] eqn:Ha; [|discriminate]. cbn in E. injection E as <- _. cbn. exists bits, a. split; [|reflexivity]. exists ob. auto.
Qed.
Lemma firstn_mid {A} (l : list A) : forall a b, (a <= b)%nat -> exists later, firstn b l = firstn a l ++ later.
Proof. intros a b H. exists (skipn a (firstn b l)). rewrite <- (firstn_skipn a (firstn b l)) at 1. rewrite firstn_firstn, Nat.min_l by lia. reflexivity. Qed.
Lemma firstn_S_nth {A} (l : list A) : forall k x, nth_error l k = Some x -> firstn (S k) l = firstn k l ++ [x].
Proof.
  induction l as [|a l IH]; intros [|k] x H; cbn in H; try discriminate; [injection H as ->; reflexivity|]. cbn [firstn app]. f_equal. rewrite <- (IH k x H). reflexivity.
Qed.
Lemma one_fit_prefix (a b : list (env L * rng)) : one_fit (a ++ b) -> one_fit a.
Proof. intros H. apply one_fit_app in H. tauto. Qed.
Lemma history_monotone pool z k1 k2 c1 c2 b1 b2 : shipped O i -> carchive cc = true -> deterministic mix -> (forall pool : list (rule L), never_nan (env_of pool)) -> (forall pool : list (rule L), size_free (env_of pool)) ->
  history pool z -> (k1 <= k2)%nat -> nth_error (snd z) k1 = Some c1 -> nth_error (snd z) k2 = Some c2 ->
  c_best c1 = Ok (Some b1) -> c_best c2 = Ok (Some b2) -> nle (sfitness (smeasured b1)) (sfitness (smeasured b2)) = true.
Proof.
  intros HS HA HM HN HZ (_ & HF & _ & HD) Hk H1 H2 B1 B2. destruct (HD _ _ H1) as (st1 & s1 & A1 & R1). destruct (HD _ _ H2) as (st2 & s2 & A2 & R2).
  rewrite B1 in R1. rewrite B2 in R2. symmetry in R1, R2. apply read_fit in R1 as (r1 & E1 & F1). apply read_fit in R2 as (r2 & E2 & F2).
  destruct (firstn_mid (snd z) (S k1) (S k2)) as (later & HL); [lia|]. rewrite HL in A2.
  rewrite (firstn_S_nth _ _ _ H1) in A1, A2, HL. unfold hist in A1, A2. rewrite !map_app in A2. rewrite map_app in A1. cbn [map] in A1, A2. rewrite <- app_assoc in A2.
  refine (shipped_never_worse O i cc _ _ _ _ _ st1 s1 st2 s2 r1 r2 _ _ HS HA _ (HN _) (HZ _) _ A1 A2 E1 E2 F1 F2); [exact HM|].
  assert (HFF : one_fit (hist (firstn (S k2) (snd z)))).
  { apply (one_fit_prefix _ (hist (skipn (S k2) (snd z)))). unfold hist. rewrite <- map_app, firstn_skipn. exact HF. }
  rewrite HL in HFF. unfold hist in HFF. rewrite !map_app in HFF. cbn [map] in HFF. rewrite <- app_assoc in HFF. exact HFF.
Qed.
End Worse.
Lemma fit_never_worse L rngof (D : discovery L) K (O : optimizer K) i cc mix f (G : logger L) p os X y
  (e e' : est (recorded_d D) (recorded_c (shipped_composition L rngof O i cc mix f)) G) k1 k2 c1 c2 f1 f2 :
  shipped O i -> carchive cc = true -> deterministic mix -> (forall m x k j, is_nan (f m x k j) = false) -> (forall m x k j j', f m x k j = f m x k j') ->
  fit p os false X y e = (Ok tt, e') -> is_error e' = false ->
  (k1 <= k2)%nat -> nth_error (ccalls e') k1 = Some c1 -> nth_error (ccalls e') k2 = Some c2 -> elite_fitness c1 f1 -> elite_fitness c2 f2 -> nle f1 f2 = true.
Proof.
  intros HS HA HM HN HZ H HE Hk H1 H2 (b1 & B1 & ->) (b2 & B2 & ->). set (M := (n_rules p * n_iter p + n_initial p)%nat).
  destruct (fit_holds L (recorded_d D) (recorded_c (shipped_composition L rngof O i cc mix f)) G p X y
    (fun pool _ c => history L rngof K O i cc mix f X y M pool c) (fun pool _ c => history L rngof K O i cc mix f X y M pool c)) with (os := os) (e := e) (e' := e')
    as (dd & c & s & _ & Hc & HH & _); auto.
  - intros d0 c0 _ Hc. apply history_start. exact Hc.
  - intros pool d0 c0 el n s new j d' HP _ _ _. apply history_grow. exact HP.
  - intros pool d0 c0 s c' HP HR. eapply history_step; eauto.
  - unfold ccalls in H1, H2. rewrite Hc in H1, H2.
    eapply (history_monotone L rngof K O i cc mix f X y M); eauto; intros pool e0 k j; [apply HN|intros j'; apply HZ].
Qed.
