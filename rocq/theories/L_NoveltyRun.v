(* Novelty search: selection, breeding and the whole run. *)
From Coq Require Import Permutation Sorted.
From Verif Require Import PyNum PyList PyMon PyRng PyStat L_Num L_List L_Rng M_Matching S_Matching L_Matching M_Rule S_Rule L_Rule L_RuleProps M_RuleGen L_RuleGen M_Mixing M_GenomeOps M_Discovery S_Discovery L_SasProps L_Discovery L_DiscoveryProps M_Novelty S_Novelty L_NoveltyNum L_Novelty L_NoveltyScore L_NoveltyProps.
From Coq Require Import Lqa.

Lemma select_in {A} (fit err : A -> num) (vol : A -> Q) (same : A -> A -> bool) s rs n g ks g' :
  select_rules fit err vol same s rs n g = (Ok ks, g') -> incl ks rs.
Proof.
  intros H. enough (HF : Forall (fun k => In k rs) ks) by (rewrite Forall_forall in HF; exact HF). destruct s; cbn [select_rules] in H.
  - injection H as <- <-. unfold fittest_n. apply Forall_forall. intros k Hk. apply In_firstn in Hk. apply (Permutation_in _ (sort_desc_perm _ _)) in Hk. exact Hk.
  - set (ks' := filter (fun k => negb (neqb (fit k) NInf)) rs) in *. destruct ks' as [|k0 ks0] eqn:EK.
    + destruct (choices rs n g) as [[o|e] g2] eqn:E; [|destruct e; inversion H; subst; constructor]. injection H as <- <-. apply choices_ok in E as [E1 E2]. exact E2.
    + destruct (choices_num (k0 :: ks0) n (map (fun f => ndiv f (nsum (map fit (k0 :: ks0)))) (map fit (k0 :: ks0))) g) as [[o|e] g2] eqn:E; [|destruct e; inversion H; subst; constructor].
      injection H as <- <-. unfold choices_num in E. destruct (finites _) as [qs|]; [|discriminate].
      apply choices_p_in in E as [E1 E2]. revert E2. apply Forall_impl. intros k Hk. rewrite <- EK in Hk. apply filter_In in Hk. apply Hk.
  - apply bind_inv in H as (c & g2 & H1 & H). unfold lift in H1. injection H1 as H1 _. apply choices_ok in H as [E1 E2].
    revert E2. apply Forall_impl. intros k Hk. unfold nd_front in H1. destruct rs as [|k0 rest]; [discriminate|]. injection H1 as <-.
    revert Hk. assert (HR : forall l acc, (In k (fold_left (nd_step err vol same) l acc)) -> In k acc \/ In k l).
    { clear. assert (HRem : forall x l, In k (remove_first same x l) -> In k l).
      { intros x l. induction l as [|y l IH]; cbn; [auto|]. destruct (same _ _); [auto|]. intros [->|H]; [auto|right; auto]. }
      assert (HSc : forall f l i q add, In k (fst (nd_scan err vol same f l i q add)) -> In k l).
      { induction f as [|f IH]; intros l i q add; cbn [nd_scan]; [auto|]. destruct (nth_error l i) as [can|]; [|auto].
        destruct (beats _ _ can q); [auto|]. destruct (beats _ _ q can); intros H; apply IH in H; eauto. }
      induction l as [|q l IH]; intros acc H; cbn [fold_left] in H; [auto|]. apply IH in H as [H|H]; [|right; right; exact H].
      unfold nd_step in H. specialize (HSc (length acc) acc 0%nat q false). destruct (nd_scan _ _ _ _ acc 0 q false) as [c add]. cbn [fst] in HSc.
      destruct add; [apply in_app_or in H as [H|[->|[]]]|]; auto. right; left; reflexivity. }
    intros Hk. apply HR in Hk as [[->|[]]|Hk]; [left; reflexivity|right; exact Hk].
  - apply choices_ok in H as [E1 E2]. exact E2.
Qed.

Lemma pairs_in {A} (l : list A) p : In p (pairs l) -> In (fst p) l /\ In (snd p) l.
Proof.
  assert (H : forall n l, (length l <= n)%nat -> In p (pairs l) -> In (fst p) l /\ In (snd p) l); [|apply (H (length l) l); lia].
  clear l. induction n as [|n IH]; intros [|a [|b l]] Hl Hp; cbn in *; try contradiction; try lia. destruct Hp as [<-|Hp]; [cbn; auto|]. apply IH in Hp; [tauto|lia].
Qed.
(* ----- crossover ----- *)
Lemma rmap_nth {A B} (f : A -> res B) l : forall l', rmap f l = Ok l' -> length l' = length l /\ forall i a, nth_error l i = Some a -> exists b, nth_error l' i = Some b /\ f a = Ok b.
Proof.
  induction l as [|a l IH]; intros l' H; cbn [rmap rbind] in H; [injection H as <-; split; [reflexivity|intros [|i] ? Hi; discriminate]|].
  destruct (f a) as [b|] eqn:E; [|discriminate]. cbn [rbind] in H. destruct (rmap f l) as [bs|] eqn:E2; [|discriminate]. cbn [rbind] in H. injection H as <-.
  destruct (IH bs eq_refl) as [I1 I2]. split; [cbn; lia|]. intros [|i] x Hx; cbn in *; [injection Hx as <-; eauto|auto].
Qed.
Lemma nth_error_seq n i : (i < n)%nat -> nth_error (seq 0 n) i = Some i.
Proof. intros H. rewrite (nth_error_nth' _ 0%nat) by (rewrite seq_length; exact H). rewrite seq_nth by exact H. reflexivity. Qed.
Lemma crossed_ok a b g cs g' : uniform_crossover OrderedBound a b g = (Ok cs, g') -> exists a' b', cs = [a'; b'] /\
  mt a' = mt a /\ mt b' = mt b /\ length (bnd a') = length (bnd a) /\ length (bnd b') = length (bnd a) /\
  forall i, (i < length (bnd a))%nat -> exists p q, nth_error (bnd a) i = Some p /\ nth_error (bnd b) i = Some q /\
    ((nth_error (bnd a') i = Some p /\ nth_error (bnd b') i = Some q) \/ (nth_error (bnd a') i = Some q /\ nth_error (bnd b') i = Some p)).
Proof.
  intros H. unfold uniform_crossover in H. apply bind_inv in H as (mask & g1 & H1 & H). apply bind_inv in H as (a' & g2 & H2 & H). apply bind_inv in H as (b' & g3 & H3 & H).
  injection H as <- <-. unfold lift in H2, H3. injection H2 as H2 _. injection H3 as H3 _. exists (mkMatching (mt a) a'), (mkMatching (mt b) b'). cbn [mt bnd].
  apply rmap_nth in H2 as [L2 N2]. apply rmap_nth in H3 as [L3 N3]. rewrite seq_length in L2, L3. repeat (split; [reflexivity || assumption|]).
  intros i Hi. destruct (N2 i i (nth_error_seq _ _ Hi)) as (x & X1 & X2). destruct (N3 i i (nth_error_seq _ _ Hi)) as (z & Z1 & Z2).
  destruct (nth i mask false).
  - destruct (nth_error (bnd a) i) as [p|]; [|discriminate]. destruct (nth_error (bnd b) i) as [q|]; [|discriminate]. cbn in X2, Z2. exists p, q. injection X2 as ->. injection Z2 as ->. auto.
  - destruct (nth_error (bnd b) i) as [q|]; [|discriminate]. destruct (nth_error (bnd a) i) as [p|]; [|discriminate]. cbn in X2, Z2. exists p, q. injection X2 as ->. injection Z2 as ->. auto.
Qed.
Lemma crossover_len rate t a b g cs g' d : length (bnd a) = d -> length (bnd b) = d -> crossover rate t a b g = (Ok cs, g') -> Forall (fun m => length (bnd m) = d) cs.
Proof.
  intros Ha Hb H. unfold crossover in H. apply bind_inv in H as (u & g1 & _ & H). destruct (qlt u rate); [|injection H as <- <-; repeat constructor; assumption].
  destruct t; try discriminate. apply crossed_ok in H as (a' & b' & -> & _ & _ & H1 & H2 & _). repeat constructor; congruence.
Qed.

Section Run.
Variable L : learner.
Variable D : denv L.
Variable d : nat.
Hypothesis HT : table d (dX D) (dy D).
Hypothesis HX : dX D <> [].
Hypothesis HP : forall m e, exists q, rfitness L m e = Fin q.
Implicit Types st : nst L.
Notation allok := (allok L D d).
Notation okheap := (okheap L D d).
Notation has := (has L).
Notation grown := (grown L).
Notation fitof := (fitof L).
Notation scof := (scof L).
Notation ok := (good L D d).

Definition ext st st' : Prop := forall x c, nth_error (cells st) x = Some c -> exists c', nth_error (cells st') x = Some c' /\ crule c' = crule c /\ (cdist c <> None -> cdist c' <> None).
Definition inv st : Prop := okheap st /\ Forall (has st) (arch st).
Lemma ext_refl st : ext st st. Proof. intros x c H. exists c. auto. Qed.
Lemma ext_trans a b c : ext a b -> ext b c -> ext a c.
Proof. intros H1 H2 x c0 Hx. destruct (H1 x c0 Hx) as (c1 & Hc1 & E1 & F1). destruct (H2 x c1 Hc1) as (c2 & Hc2 & E2 & F2). exists c2. split; [exact Hc2|]. split; [congruence|auto]. Qed.
Lemma grown_ext a b : grown a b -> ext a b. Proof. intros (_ & _ & _ & H). exact H. Qed.
Lemma ext_has a b i : ext a b -> has a i -> has b i.
Proof. intros H (c & ds & Hc & Hd). destruct (H i c Hc) as (c' & Hc' & _ & HF). destruct (cdist c') as [ds'|] eqn:E; [exists c', ds'; auto|]. exfalso. apply HF; congruence. Qed.
Lemma ext_live a b i : ext a b -> live a i -> live b i.
Proof. intros H HL. destruct (live_cell L a i HL) as (c & Hc). destruct (H i c Hc) as (c' & Hc' & _). eapply cell_live; eauto. Qed.
Definition vld st (i : nat) : Prop := exists c, nth_error (cells st) i = Some c /\ is_valid (crule c) = true.
Lemma ext_vld a b i : ext a b -> vld a i -> vld b i.
Proof. intros H (c & Hc & Hv). destruct (H i c Hc) as (c' & Hc' & E & _). exists c'. split; [exact Hc'|congruence]. Qed.
Lemma Forall_ext (P : nst L -> nat -> Prop) a b l : (forall i, ext a b -> P a i -> P b i) -> ext a b -> Forall (P a) l -> Forall (P b) l.
Proof. intros HPx HE. apply Forall_impl. intros i. apply HPx. exact HE. Qed.

(* the generator does not matter to the heap *)
Lemma on_rng_inv {A} (m : St rng A) st a st' : on_rng L m st = (Ok a, st') -> exists g', m (gen st) = (Ok a, g') /\ st' = mkNst (cells st) (arch st) g'.
Proof. unfold on_rng. destruct (m (gen st)) as [[v|e] g'] eqn:E; intros H; inversion H; subst. eauto. Qed.
Lemma regen_inv st g : inv st -> inv (mkNst (cells st) (arch st) g). Proof. intros H. exact H. Qed.
Lemma regen_ext st g : ext st (mkNst (cells st) (arch st) g). Proof. intros x c H. exists c. auto. Qed.
Lemma alloc_step r st i st' : alloc L r st = (Ok i, st') -> inv st -> ok r -> inv st' /\ ext st st' /\ live st' i.
Proof.
  intros H [HO HA] HR. unfold alloc in H. injection H as <- <-. split; [|split].
  - split.
    + unfold L_Novelty.okheap in *. cbn [cells]. apply Forall_app. split; [exact HO|]. constructor; [|constructor]. split; [exact HR|]. split; [intros HH; cbn in HH; congruence|intros ds HH; discriminate].
    + cbn [arch]. revert HA. apply Forall_impl. intros i (c & ds & Hc & Hd). exists c, ds. cbn [cells]. split; [|exact Hd]. rewrite nth_error_app1; [exact Hc|]. eapply cell_live; eauto.
  - intros x c Hc. exists c. cbn [cells]. rewrite nth_error_app1 by (eapply cell_live; eauto). auto.
  - unfold live. cbn [cells]. rewrite app_length. cbn. lia.
Qed.
(* allocating a list of rules *)
Lemma alloc_all {A} (f : A -> St rng (rule L)) (P : A -> Prop) : (forall a g r g', P a -> f a g = (Ok r, g') -> ok r) ->
  forall l st ids st', Forall P l -> mmap (fun a => let* r := on_rng L (f a) in alloc L r) l st = (Ok ids, st') -> inv st -> inv st' /\ ext st st' /\ Forall (live st') ids.
Proof.
  intros HF. induction l as [|a l IH]; intros st ids st' HPl H HI; cbn [mmap] in H.
  - injection H as <- <-. split; [exact HI|]. split; [apply ext_refl|constructor].
  - inversion HPl as [|? ? Pa Pl]; subst. apply bind_inv in H as (i & s1 & H1 & H). apply bind_inv in H as (is & s2 & H2 & H). injection H as <- <-.
    apply bind_inv in H1 as (r & s0 & H0 & H1). apply on_rng_inv in H0 as (g' & H0 & ->).
    destruct (alloc_step _ _ _ _ H1 (regen_inv _ _ HI) (HF _ _ _ _ Pa H0)) as (I1 & E1 & L1). destruct (IH _ _ _ Pl H2 I1) as (I2 & E2 & L2).
    split; [exact I2|]. split; [eapply ext_trans; [apply (regen_ext st g')|]; eapply ext_trans; eauto|]. constructor; [eapply ext_live; eauto|exact L2].
Qed.
Lemma init_population_ok (c : nscfg) st pop st' : space_dim d (d_constraint (ns_d c)) -> init_population L c D st = (Ok pop, st') -> inv st -> inv st' /\ ext st st' /\ Forall (live st') pop.
Proof.
  intros HS H HI. unfold init_population in H. apply bind_inv in H as (xs & s1 & H1 & H). apply on_rng_inv in H1 as (g1 & H1 & ->).
  destruct (origins_len L D d HT _ _ _ _ _ H1) as [_ HXd].
  destruct (alloc_all (new_rule (ns_d c) D) (fun x => length x = d)) with (l := xs) (st := mkNst (cells st) (arch st) g1) (ids := pop) (st' := st') as (I & E & V); [intros x g r g' Hx; apply (new_rule_good L D d HT); assumption|exact HXd|exact H|exact HI|].
  split; [exact I|]. split; [eapply ext_trans; [apply (regen_ext st g1)|exact E]|exact V].
Qed.
Lemma crules_eq st ids out st' : mmap (fun i => let* x := cell_of L i in ret (i, crule x)) ids st = (Ok out, st') ->
  st' = st /\ Forall2 (fun i p => fst p = i /\ exists c, nth_error (cells st) i = Some c /\ crule c = snd p) ids out.
Proof.
  revert out st'. induction ids as [|i ids IH]; intros out st' H; cbn [mmap] in H; [injection H as <- <-; split; [reflexivity|constructor]|].
  apply bind_inv in H as (p & s1 & H1 & H). apply bind_inv in H as (ps & s2 & H2 & H). injection H as <- <-. apply bind_inv in H1 as (x & s0 & H0 & H1). injection H1 as <- <-.
  unfold cell_of in H0. destruct (nth_error (cells st) i) as [c|] eqn:E; [|discriminate]. injection H0 as <- <-.
  destruct (IH _ _ H2) as [-> HF]. split; [reflexivity|]. constructor; [|exact HF]. split; [reflexivity|]. exists c. auto.
Qed.
Lemma crules_fst ids out st : Forall2 (fun i (p : nat * rule L) => fst p = i /\ exists c, nth_error (cells st) i = Some c /\ crule c = snd p) ids out -> map fst out = ids.
Proof. induction 1 as [|i p ids out [H _] HF IH]; [reflexivity|]. cbn. congruence. Qed.
Lemma select_parents_ok (c : nscfg) pop st ps st' : select_parents L c pop st = (Ok ps, st') -> inv st -> inv st' /\ ext st st' /\ incl ps pop.
Proof.
  intros H HI. unfold select_parents in H. apply bind_inv in H as (rs & s1 & H1 & H). apply crules_eq in H1 as [-> HF]. apply crules_fst in HF.
  apply bind_inv in H as (ks & s2 & H2 & H). apply on_rng_inv in H2 as (g2 & H2 & ->). apply on_rng_inv in H as (g3 & H & ->). cbn [gen cells arch] in *.
  pose proof (shuffle_perm (map fst ks) g2) as HPm. destruct (shuffle (map fst ks) g2) as [l g4]. injection H as <- <-. cbn in HPm.
  split; [exact HI|]. split; [apply regen_ext|]. intros i Hi. apply (Permutation_in _ (Permutation_sym HPm)) in Hi. apply in_map_iff in Hi as (k & <- & Hk).
  apply select_in in H2. rewrite <- HF. apply in_map. apply H2. exact Hk.
Qed.
Lemma mutant_good' c mu p g r g' : space_dim d (d_constraint c) -> length (bnd (cond p)) = d -> mutant c mu D p g = (Ok r, g') -> ok r.
Proof.
  intros HS HL H. unfold mutant in H. apply bind_inv in H as (m & g1 & H1 & H). unfold lift in H. injection H as H _.
  apply mutate_rule_len in H1. eapply (fitted_good L D d HT); [|exact H]. apply constrain_len; [exact HS|congruence].
Qed.
Lemma make_children_ok (c : nscfg) ps st ids st' : space_dim d (d_constraint (ns_d c)) -> make_children L c D ps st = (Ok ids, st') -> inv st -> Forall (live st) ps -> inv st' /\ ext st st' /\ Forall (live st') ids.
Proof.
  intros HS H HI HL. unfold make_children in H. apply bind_inv in H as (conds & s1 & H1 & H).
  assert (HC : (exists g1, s1 = mkNst (cells st) (arch st) g1) /\ Forall (Forall (fun m => length (bnd m) = d)) conds).
  { assert (HPr : Forall (fun p : nat * nat => live st (fst p) /\ live st (snd p)) (pairs ps)).
    { apply Forall_forall. intros p Hp. apply pairs_in in Hp as [A1 A2]. rewrite Forall_forall in HL. auto. }
    clear H. assert (HG : forall l s conds s1, cells s = cells st -> arch s = arch st -> Forall (fun p : nat * nat => live st (fst p) /\ live st (snd p)) l ->
      mmap (fun p => let* a := cell_of L (fst p) in let* b := cell_of L (snd p) in on_rng L (crossover (ns_rate c) (d_type (ns_d c)) (cond (crule a)) (cond (crule b)))) l s = (Ok conds, s1) ->
      (exists g1, s1 = mkNst (cells st) (arch st) g1) /\ Forall (Forall (fun m => length (bnd m) = d)) conds).
    { induction l as [|[i j] l IH]; intros s cs s' HC HAr HLl H; cbn [mmap] in H.
      - injection H as <- <-. split; [exists (gen s); destruct s; cbn in *; congruence|constructor].
      - inversion HLl as [|? ? [Li Lj] HLl']; subst. cbn [fst snd] in *. apply bind_inv in H as (x & s2 & H2 & H). apply bind_inv in H as (xs & s3 & H3 & H). injection H as <- <-.
        apply bind_inv in H2 as (a & s4 & Ha & H2). apply bind_inv in H2 as (b & s5 & Hb & H2). unfold cell_of in Ha, Hb. 
        destruct (nth_error (cells s) i) as [ca|] eqn:Ea; [|discriminate]. injection Ha as <- <-. destruct (nth_error (cells s) j) as [cb|] eqn:Eb; [|discriminate]. injection Hb as <- <-.
        apply on_rng_inv in H2 as (g2 & H2 & ->). apply (crossover_len _ _ _ _ _ _ _ d) in H2.
        + apply IH in H3; [|cbn; assumption|cbn; assumption|assumption]. destruct H3 as [H3 H3']. split; [exact H3|constructor; assumption].
        + destruct HI as [HO _]. rewrite HC in Ea. exact (proj2 (allok_cell L D d _ _ _ (okheap_allok L D d _ HO) Ea)).
        + destruct HI as [HO _]. rewrite HC in Eb. exact (proj2 (allok_cell L D d _ _ _ (okheap_allok L D d _ HO) Eb)). }
    exact (HG _ _ _ _ eq_refl eq_refl HPr H1). }
  destruct HC as [(g1 & ->) HC].
  destruct (alloc_all (fun m => mutant (ns_d c) (ns_mut c) D (fresh_rule L m)) (fun m => length (bnd m) = d)) with (l := concat conds) (st := mkNst (cells st) (arch st) g1) (ids := ids) (st' := st') as (I & E & V); [intros m g r g' Hm; apply mutant_good'; assumption| |exact H|exact HI|].
  - apply Forall_forall. intros m Hm. apply in_concat in Hm as (l & Hl & Hm). rewrite Forall_forall in HC. specialize (HC l Hl). rewrite Forall_forall in HC. auto.
  - split; [exact I|]. split; [eapply ext_trans; [apply (regen_ext st g1)|exact E]|exact V].
Qed.
Lemma valid_children_ok ids st out st' : valid_children L ids st = (Ok out, st') -> st' = st /\ incl out ids /\ Forall (vld st) out.
Proof.
  intros H. unfold valid_children in H. apply bind_inv in H as (rs & s1 & H1 & H). apply crules_eq in H1 as [-> HF]. injection H as <- <-. split; [reflexivity|].
  pose proof (crules_fst _ _ _ HF) as HE. split.
  - rewrite <- HE. intros i Hi. apply in_map_iff in Hi as (p & <- & Hp). apply filter_In in Hp as [Hp _]. apply in_map. exact Hp.
  - rewrite Forall_map. apply Forall_forall. intros p Hp. apply filter_In in Hp as [Hp Hv]. clear HE. induction HF as [|i q ids rs [H1 (c & Hc & E)] HF IH]; [destruct Hp|].
    destruct Hp as [->|Hp]; [|auto]. subst i. exists c. split; [exact Hc|]. rewrite E. exact Hv.
Qed.

(* ----- picking the most novel ----- *)
Lemma n_best_eq st rs n : allok st -> Forall (fun i => live st i /\ scof st i <> None) rs ->
  n_best rs n st = (Ok (map fst (firstn n (by_key (lex_lt qlt) (map (fun i => (i, (sval L st i, expof L st i))) rs)))), st).
Proof.
  intros HA HF. unfold n_best, bind. rewrite (with_key_eq L _ (fun i => (sval L st i, expof L st i)) st rs); [reflexivity|].
  revert HF. apply Forall_impl. intros i [Hl Hs]. destruct (scof st i) as [s|] eqn:E; [|congruence]. rewrite (score_of_eq L _ _ _ E). rewrite (experience_of_eq L D d _ _ HA Hl).
  unfold ret, sval. rewrite E. reflexivity.
Qed.
Definition vkey st (i : nat) : num * Q := (sval L st i, expof L st i).
Definition ranked st (a b : nat) : Prop := lex_ge (fun x y : Q => y <= x) (vkey st a) (vkey st b).
Lemma n_best_total st rs n : allok st -> Forall (fun i => live st i /\ scof st i <> None) rs ->
  exists out rest, n_best rs n st = (Ok out, st) /\ length out = Nat.min n (length rs) /\ Permutation rs (out ++ rest) /\
    (Forall (fun i => is_nan (sval L st i) = false) rs -> StronglySorted (ranked st) out /\ forall a b, In a out -> In b rest -> ranked st a b).
Proof.
  intros HA HF. rewrite (n_best_eq st rs n HA HF). change (fun i => (i, (sval L st i, expof L st i))) with (fun i => (i, vkey st i)). set (ks := map (fun i => (i, vkey st i)) rs). set (s := by_key (lex_lt qlt) ks).
  assert (HPm : Permutation s ks) by apply by_key_perm. assert (HPf : Permutation (map fst s) rs).
  { rewrite (Permutation_map fst HPm). unfold ks. rewrite map_map. cbn. rewrite map_id. reflexivity. }
  exists (map fst (firstn n s)), (map fst (skipn n s)). split; [reflexivity|]. split; [|split].
  - rewrite map_length, firstn_length. rewrite (Permutation_length HPm). unfold ks. rewrite map_length. reflexivity.
  - rewrite <- map_app, firstn_skipn; symmetry; exact HPf.
  - intros HN. assert (HS : StronglySorted (fun p q : nat * (num * Q) => lex_ge (fun x y : Q => y <= x) (snd p) (snd q)) s).
    { unfold s, by_key. apply (lex_sorted (fun p : nat * (num * Q) => snd p) qlt (fun x y => y <= x) (fun _ => True)).
      - intros a b _ _ H. apply qlt_iff in H. lra.
      - intros a b _ _ H. destruct (qlt_spec a b); [discriminate|lra].
      - intros a b c _ _ _ H1 H2. lra.
      - unfold ks. rewrite Forall_map. revert HN. apply Forall_impl. intros i H. split; [exact H|exact I]. }
    assert (Hk : forall z, In z s -> snd z = vkey st (fst z)) by (intros z Hz; apply (Permutation_in _ HPm) in Hz; apply in_map_iff in Hz as (i & <- & _); reflexivity).
    assert (HM : StronglySorted (ranked st) (map fst s)).
    { clearbody s. clear HPm HPf. induction HS as [|p s HS IH HFp]; [constructor|]. cbn. constructor; [apply IH; intros z Hz; apply Hk; right; exact Hz|].
      rewrite Forall_map. rewrite Forall_forall in *. intros q Hq. unfold ranked. rewrite <- (Hk p), <- (Hk q); [apply HFp; exact Hq|right; exact Hq|left; reflexivity]. }
    rewrite <- (firstn_skipn n s), map_app in HM. split.
    + revert HM. generalize (map fst (firstn n s)) as l1, (map fst (skipn n s)) as l2. intros l1 l2. induction l1 as [|a l1 IH]; cbn; intros H; [constructor|]. inversion H as [|? ? H1 H2]; subst. constructor; [auto|]. apply Forall_app in H2. apply H2.
    + revert HM. generalize (map fst (firstn n s)) as l1, (map fst (skipn n s)) as l2. intros l1 l2. induction l1 as [|x l1 IH]; cbn; intros H a b Ha Hb; [destruct Ha|]. inversion H as [|? ? H1 H2]; subst.
      destruct Ha as [->|Ha]; [|auto]. apply Forall_app in H2 as [_ H2]. rewrite Forall_forall in H2. auto.
Qed.
Lemma extend_eq l st : extend_archive L l st = (Ok tt, mkNst (cells st) (arch st ++ l) (gen st)). Proof. reflexivity. Qed.
Lemma archive_total a rs n st : inv st -> Forall (fun i => has st i /\ scof st i <> None) rs ->
  exists rs' st' new, archive_rules a rs n st = (Ok rs', st') /\ Permutation rs rs' /\ cells st' = cells st /\ arch st' = arch st ++ new /\ incl new rs /\ (length new <= n)%nat.
Proof.
  intros [HO HA] HF. pose proof (okheap_allok L D d st HO) as HAl. destruct a; cbn [archive_rules].
  - destruct (n_best_total st rs n HAl) as (out & rest & E & Hl & HPm & _); [revert HF; apply Forall_impl; intros i [H1 H2]; split; [apply has_live; exact H1|exact H2]|].
    unfold bind. rewrite E, extend_eq. exists rs, (mkNst (cells st) (arch st ++ out) (gen st)), out. split; [reflexivity|]. split; [reflexivity|]. split; [reflexivity|]. split; [reflexivity|].
    split; [|lia]. intros i Hi. apply (Permutation_in _ (Permutation_sym HPm)). apply in_or_app. left. exact Hi.
  - unfold bind, on_rng. pose proof (shuffle_perm rs (gen st)) as HPm. destruct (shuffle rs (gen st)) as [l g']. cbn in HPm. cbn [extend_archive cells arch gen].
    exists l, (mkNst (cells st) (arch st ++ firstn n l) g'), (firstn n l). split; [reflexivity|]. split; [exact HPm|]. split; [reflexivity|]. split; [reflexivity|].
    split; [|rewrite firstn_length; lia]. intros i Hi. apply (Permutation_in _ (Permutation_sym HPm)). eapply In_firstn; eauto.
  - exists rs, st, []. split; [reflexivity|]. split; [reflexivity|]. split; [reflexivity|]. split; [symmetry; apply app_nil_r|]. split; [intros i []|cbn; lia].
Qed.
Lemma selection_total (c : nscfg) rs n roh st : inv st -> Forall (live st) rs -> rs <> [] -> type_ok (ns_type c) ->
  exists mid out rest new st', rule_selection c rs n roh st = (Ok out, st') /\ inv st' /\ ext st st' /\ incl mid rs /\ mid <> [] /\ Permutation mid (out ++ rest) /\ length out = Nat.min n (length mid) /\
    Forall (has st') mid /\ (forall i, In i mid -> exists s, novelty_is st' i s /\ okscore (ns_calc c) (ns_type c) s) /\
    arch st' = arch st ++ new /\ incl new mid /\
    ((forall nb fb, ns_calc c <> NBiased nb fb) -> StronglySorted (ranked st') out /\ forall a b, In a out -> In b rest -> ranked st' a b).
Proof.
  intros HI HL HR Ht. destruct HI as [HO HA].
  destruct (novelty_total L D d HT HX HP (ns_calc c) (ns_type c) (ns_k c) rs st HO HA HL HR Ht) as (mid & fl & st1 & E1 & N1 & I1 & I2 & G1 & O1 & A1 & F1 & S1 & _).
  assert (HF : Forall (fun i => has st1 i /\ scof st1 i <> None) mid).
  { apply Forall_forall. intros i Hi. apply I1 in Hi. rewrite Forall_forall in F1. split; [apply F1; exact Hi|]. destruct (S1 i Hi) as (s & -> & _). discriminate. }
  assert (HM : exists mid' st2 new, (if ns_use_pop c then extend_archive L mid ;; ret mid else archive_rules (ns_archive c) mid roh) st1 = (Ok mid', st2) /\ Permutation mid mid' /\ cells st2 = cells st1 /\ arch st2 = arch st1 ++ new /\ incl new mid).
  { destruct (ns_use_pop c).
    - exists mid, (mkNst (cells st1) (arch st1 ++ mid) (gen st1)), mid. split; [reflexivity|]. split; [reflexivity|]. split; [reflexivity|]. split; [reflexivity|apply incl_refl].
    - destruct (archive_total (ns_archive c) mid roh st1 (conj O1 A1) HF) as (rs' & st' & new & B1 & B2 & B3 & B4 & B5 & _). exists rs', st', new. auto. }
  destruct HM as (mid' & st2 & new & E2 & P2 & C2 & A2 & N2).
  assert (Hhas : forall i, has st1 i -> has st2 i) by (intros i (x & ds & Hx & Hd); exists x, ds; rewrite C2; auto).
  assert (Hsc : forall i, scof st2 i = scof st1 i) by (intros i; unfold L_NoveltyScore.scof; rewrite C2; reflexivity).
  assert (HO2 : okheap st2) by (unfold L_Novelty.okheap; rewrite C2; exact O1).
  assert (HF2 : Forall (fun i => has st2 i /\ scof st2 i <> None) mid').
  { eapply Permutation_Forall; [exact P2|]. revert HF. apply Forall_impl. intros i [H1 H2]. split; [auto|rewrite Hsc; exact H2]. }
  destruct (n_best_total st2 mid' n (okheap_allok L D d st2 HO2)) as (out & rest & E3 & Hl & HPm & HS); [revert HF2; apply Forall_impl; intros i [H1 H2]; split; [apply has_live; exact H1|exact H2]|].
  exists mid, out, rest, new, st2. split; [unfold rule_selection, bind at 1; rewrite E1; unfold bind at 1; rewrite E2; exact E3|].
  destruct G1 as (GA & GG & GL & GE).
  split; [split; [exact HO2|]|]. { rewrite A2. apply Forall_app. split; [revert A1; apply Forall_impl; auto|]. apply Forall_forall. intros i Hi. apply N2 in Hi. rewrite Forall_forall in HF. apply Hhas, HF. exact Hi. }
  split; [intros x cx Hx; rewrite C2; apply GE; exact Hx|]. split; [eapply incl_tran; eauto|]. split; [exact N1|]. split; [rewrite P2; exact HPm|].
  split; [rewrite Hl, (Permutation_length P2); reflexivity|]. split; [revert HF; apply Forall_impl; intros i [H1 _]; auto|].
  split; [intros i Hi; apply I1 in Hi; destruct (S1 i Hi) as (s & Hs & Ho); exists s; split; [apply novelty_is_iff; rewrite Hsc; exact Hs|exact Ho]|].
  split; [rewrite A2, GA; reflexivity|]. split; [exact N2|]. intros HB. apply HS. eapply Permutation_Forall; [exact P2|]. apply Forall_forall. intros i Hi. apply I1 in Hi.
  destruct (S1 i Hi) as (s & Hs & Ho). unfold sval. rewrite Hsc, Hs. unfold okscore in Ho. destruct (ns_calc c); [| | |exfalso; eapply HB; reflexivity]; destruct Ho as (q & -> & _); reflexivity.
Qed.
Lemma ns_loop_ok (c : nscfg) n : space_dim d (d_constraint (ns_d c)) -> type_ok (ns_type c) -> forall pop best st out st', ns_loop c D n pop best st = (Ok out, st') -> inv st -> Forall (live st) pop ->
  Forall (fun i => has st i /\ vld st i) best -> inv st' /\ Forall (fun i => has st' i /\ vld st' i) out.
Proof.
  intros HS Ht. induction n as [|n IH]; intros pop best st out st' H HI HL HB; cbn [ns_loop] in H; [injection H as <- <-; split; assumption|].
  apply bind_inv in H as (ps & s1 & H1 & H). apply select_parents_ok in H1 as (I1 & E1 & P1); [|exact HI].
  assert (L1 : Forall (live s1) pop) by (eapply (Forall_ext (fun s i => live s i)); [|exact E1|exact HL]; intros i; apply ext_live).
  assert (HVE : forall a b l, ext a b -> Forall (fun i => has a i /\ vld a i) l -> Forall (fun i => has b i /\ vld b i) l).
  { intros a b l HE. apply Forall_impl. intros i [A B]. split; [eapply ext_has; eauto|eapply ext_vld; eauto]. }
  assert (LP : Forall (live s1) ps) by (apply Forall_forall; intros i Hi; rewrite Forall_forall in L1; apply L1, P1; exact Hi).
  destruct ps as [|p ps]; [exact (IH _ _ _ _ _ H I1 L1 (HVE _ _ _ E1 HB))|]. set (pps := p :: ps) in *.
  apply bind_inv in H as (ch & s2 & H2 & H). apply make_children_ok in H2 as (I2 & E2 & L2); [|exact HS|exact I1|exact LP].
  apply bind_inv in H as (va & s3 & H3 & H). apply valid_children_ok in H3 as (-> & V1 & V2).
  assert (E12 : ext st s2) by (eapply ext_trans; eauto).
  destruct va as [|v va]; [refine (IH _ _ _ _ _ H I2 _ (HVE _ _ _ E12 HB)); eapply (Forall_ext (fun s i => live s i)); [|exact E2|exact L1]; intros i; apply ext_live|]. set (vva := v :: va) in *.
  apply bind_inv in H as (bc & s4 & H4 & H). apply bind_inv in H as (bp & s5 & H5 & H).
  assert (LV : Forall (live s2) vva) by (apply Forall_forall; intros i Hi; rewrite Forall_forall in L2; apply L2, V1; exact Hi).
  destruct (selection_total c vva (ns_mu c) (ns_roh c) s2 I2 LV ltac:(discriminate) Ht) as (mid & o & rest & new & s4' & E4 & I4 & X4 & C4 & N4 & P4 & _ & F4 & _).
  rewrite E4 in H4. injection H4 as <- <-.
  assert (LP4 : Forall (live s4') pps).
  { eapply (Forall_ext (fun s i => live s i)); [|exact X4|]; [intros i; apply ext_live|]. eapply (Forall_ext (fun s i => live s i)); [|exact E2|exact LP]; intros i; apply ext_live. }
  destruct (selection_total c pps (ns_elitists c) 0 s4' I4 LP4 ltac:(discriminate) Ht) as (mid5 & o5 & rest5 & new5 & s5' & E5 & I5 & X5 & C5 & N5 & P5 & _ & F5 & _).
  rewrite E5 in H5. injection H5 as <- <-.
  assert (Ho : forall i, In i o -> In i mid) by (intros i Hi; apply (Permutation_in _ (Permutation_sym P4)), in_or_app; left; exact Hi).
  assert (Ho5 : forall i, In i o5 -> In i mid5) by (intros i Hi; apply (Permutation_in _ (Permutation_sym P5)), in_or_app; left; exact Hi).
  assert (HBO : Forall (fun i => has s5' i /\ vld s5' i) o).
  { apply (HVE s4' s5' o X5). apply Forall_forall. intros i Hi. rewrite Forall_forall in F4, V2. split; [apply F4, Ho; exact Hi|]. eapply ext_vld; [exact X4|]. apply V2, C4, Ho. exact Hi. }
  refine (IH _ _ _ _ _ H I5 _ HBO). apply Forall_app. split; [revert HBO; apply Forall_impl; intros i [Hi _]; apply has_live; exact Hi|].
  apply Forall_forall. intros i Hi. rewrite Forall_forall in F5. apply has_live, F5, Ho5. exact Hi.
Qed.
Lemma accepted_spec a cs : forall out, accepted L a (dy D) cs = Ok out -> (length out <= length cs)%nat /\ Forall (fun c => In c cs /\ accept a (crule c) (dy D) = Ok true) out.
Proof.
  induction cs as [|x cs IH]; intros out H; cbn [accepted] in H; [injection H as <-; split; [auto|constructor]|].
  destruct (accept a (crule x) (dy D)) as [okx|] eqn:E; [|discriminate]. cbn [rbind] in H. destruct (accepted L a (dy D) cs) as [rest|] eqn:E2; [|discriminate]. cbn [rbind] in H. injection H as <-.
  destruct (IH rest eq_refl) as [HL HF]. assert (HF' : Forall (fun c => In c (x :: cs) /\ accept a (crule c) (dy D) = Ok true) rest) by (revert HF; apply Forall_impl; intros c [Hi Ha]; split; [right; exact Hi|exact Ha]).
  destruct okx; cbn [length]; (split; [lia|]); [|exact HF']. constructor; [|exact HF']. split; [left; reflexivity|exact E].
Qed.
Lemma ns_run_ok (c : nscfg) n st out st' : space_dim d (d_constraint (ns_d c)) -> usable (d_accept (ns_d c)) -> type_ok (ns_type c) -> inv st -> ns_run c D n st = (Ok out, st') ->
  (length out <= n)%nat /\ Forall (fun x => searched d (dX D) (dy D) x /\ cscore x = None /\ matches_some (dX D) (crule x) /\ passes (d_accept (ns_d c)) (dy D) (crule x)) out.
Proof.
  intros HS HU Ht HI H. unfold ns_run in H. apply bind_inv in H as (pop & s1 & H1 & H). apply init_population_ok in H1 as (I1 & E1 & L1); [|exact HS|exact HI].
  apply bind_inv in H as (best & s2 & H2 & H). apply ns_loop_ok in H2 as [I2 B2]; [|exact HS|exact Ht|exact I1|exact L1|constructor].
  apply bind_inv in H as (os & s3 & H3 & H). unfold lift in H. injection H as H _.
  assert (HO : length os = length (firstn n best) /\ Forall (fun x => searched d (dX D) (dy D) x /\ cscore x = None) os).
  { assert (HB : Forall (fun i => has s2 i /\ vld s2 i) (firstn n best)) by (apply Forall_forall; intros i Hi; rewrite Forall_forall in B2; apply B2; eapply In_firstn; eauto).
    clear H B2. revert os s3 H3. induction HB as [|i l [(x & ds & Hx & Hd) _] HB IH]; intros os s3 H3; cbn [mmap] in H3; [injection H3 as <- <-; split; [reflexivity|constructor]|].
    apply bind_inv in H3 as (y & s4 & H4 & H3). apply bind_inv in H3 as (ys & s5 & H5 & H3). injection H3 as <- <-. apply bind_inv in H4 as (z & s6 & H6 & H4). injection H4 as <- <-.
    unfold cell_of in H6. rewrite Hx in H6. injection H6 as <- <-. destruct (IH _ _ H5) as [J1 J2]. split; [cbn; lia|]. constructor; [|exact J2]. split; [|reflexivity].
    destruct I2 as [O2 _]. unfold L_Novelty.okheap in O2. rewrite Forall_nth_error in O2. destruct (O2 i x Hx) as ((K1 & K2) & _ & K3). unfold searched, stripped. cbn [crule cdist].
    split; [exact K1|]. split; [exact K2|]. exists ds. split; [exact Hd|]. exact (K3 ds Hd). }
  destruct HO as [HL HF]. apply accepted_spec in H as [HA1 HA2]. split; [rewrite HL, firstn_length in HA1; lia|].
  apply Forall_forall. intros x Hx. rewrite Forall_forall in HA2, HF. destruct (HA2 x Hx) as [Hi Ha]. destruct (HF x Hi) as [S1 S2]. split; [exact S1|]. split; [exact S2|].
  destruct (accept_passes L D d HT _ _ HU (conj (proj1 S1) (proj1 (proj2 S1))) Ha) as [P1 P2]. split; assumption.
Qed.
End Run.

Lemma ns_optimize_accepted (L : learner) (c : nscfg) d X y (pool : list (cell L)) elite mix n g out g' :
  table d X y -> X <> [] -> (forall m e, exists q, rfitness L m e = Fin q) -> space_dim d (d_constraint (ns_d c)) -> usable (d_accept (ns_d c)) -> type_ok (ns_type c) ->
  Forall (searched d X y) pool -> ns_optimize c X y pool elite mix n g = (Ok out, g') ->
  (length out <= n)%nat /\ Forall (fun x => searched d X y x /\ cscore x = None /\ matches_some X (crule x) /\ passes (d_accept (ns_d c)) y (crule x)) out.
Proof.
  intros HT HX HP HS HU Ht HF H. unfold ns_optimize in H. set (D := mkDenv X y (map crule pool) elite mix) in *.
  destruct (ns_run c D n (mkNst pool (seq 0 (length pool)) g)) as [r s] eqn:E. injection H as -> _.
  refine (ns_run_ok L D d HT HX HP c n _ _ _ HS HU Ht _ E). split; cbn [cells arch].
  - unfold okheap. cbn [cells]. revert HF. apply Forall_impl. intros x (A & B & ds & E1 & E2 & E3). split; [split; [exact A|exact B]|]. split; [congruence|]. intros ds' Hd. assert (ds' = ds) by congruence. subst ds'. split; [exact E2|exact E3].
  - apply Forall_forall. intros i Hi. apply in_seq in Hi. destruct (nth_error pool i) as [x|] eqn:Ex; [|apply nth_error_None in Ex; lia].
    rewrite Forall_forall in HF. destruct (HF x (nth_error_In _ _ Ex)) as (_ & _ & ds & E1 & _). exists x, ds. cbn [cells]. auto.
Qed.
