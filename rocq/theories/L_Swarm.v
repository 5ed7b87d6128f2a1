(* Particle swarm and grey wolves: safety. *)
From Coq Require Import Lia Permutation.
From Verif Require Import PyNum PyList PyMon PyRng PyStat L_Num L_List L_Rng M_Matching M_Rule M_Mixing L_Mixing M_Solution S_Solution
  L_Heap L_HeapProps M_Composition L_Safe L_SafeFit L_Composition M_GenomeOps S_GenomeOps L_GenomeOps L_Held M_Aco M_Abc M_Swarm.

Lemma combine_len {T U} (a : list T) (b : list U) n : length a = n -> length b = n -> length (combine a b) = n.
Proof. rewrite combine_length. lia. Qed.
Lemma map2_len {T U V} (f : T -> U -> V) a b n : length a = n -> length b = n -> length (map2 f a b) = n.
Proof. intros H1 H2. rewrite map2_length; lia. Qed.
Ltac lens := repeat first [apply combine_len | apply map2_len | rewrite map_length | rewrite mapi_length | rewrite seq_length | assumption | reflexivity].

Lemma fill_equal_length half sums : forall qs, length (fill_equal half sums qs) = length sums.
Proof.
  induction sums as [|x sums IH]; intros qs; cbn [fill_equal]; auto. destruct (Nat.eqb x half); [destruct qs|]; cbn [length]; rewrite IH; auto.
Qed.
Lemma binary_mean_length n xs g : length (fst (binary_mean n xs g)) = n.
Proof. unfold binary_mean. destruct (draws _ g). cbn [fst]. rewrite fill_equal_length, map_length, seq_length. reflexivity. Qed.

Section Swarm.
Context {L : learner}.
Variable E : env L.
Variable A : nat -> Prop.
Implicit Types s : hst plain.
Let n := length (epool E).
Local Notation safe := (safe E A).
Local Notation good := (good E A).
Local Notation inv := (inv A).
Local Notation held := (held E A).

(* lengths of the real-valued vectors *)
Definition shaped (m : movement) (p : particle) : Prop :=
  match m with
  | MSigmoid _ _ _ => length (p_pos p) = n /\ length (p_bestpos p) = n /\ length (p_vel p) = n
  | MSigmoidQuantum => length (p_pos p) = n /\ length (p_bestpos p) = n
  | MBinaryQuantum _ _ => True
  end.
Definition placed m s p : Prop := good s (p_sol p) /\ held s (p_best p) /\ shaped m p.
Lemma grow_placed h m s s' p : grow E A h s s' -> placed m s p -> placed m s' p.
Proof. intros G (H1 & H2 & H3). split; [eapply grow_good; eauto|]. split; [eapply grow_held; eauto|auto]. Qed.
Lemma grow_placeds h m s s' ps : grow E A h s s' -> Forall (placed m s) ps -> Forall (placed m s') ps.
Proof. intros G. apply Forall_impl. intros p. eapply grow_placed; eauto. Qed.

Lemma not_live_grow h s s' r : grow E A h s s' -> ~ live s' r -> ~ live s r.
Proof. intros G H Hl. apply H. unfold live in *. pose proof (proj1 (proj2 G)). lia. Qed.
Lemma start_position_length bits us k : length bits = k -> length us = k -> length (start_position bits us) = k.
Proof. intros H1 H2. unfold start_position. lens. Qed.
Lemma safe_init_particle m r s : inv s -> good s r ->
  safe true (init_particle m r) (fun p s' => placed m s' p /\ p_sol p = r /\ good s' (p_best p) /\ ~ live s (p_best p) /\
     (honest E s r -> honest E s' (p_best p))) s.
Proof.
  intros I HG. unfold init_particle. eapply safe_bind; [apply safe_genome; auto|]. intros bits s0 _ (-> & HL & _). cbv beta.
  assert (HC : forall s1 pos bp vel, grow E A true s s1 -> (forall b, shaped m (mkPart r b pos bp vel)) ->
     safe true (let* best := clone r in ret (mkPart r best pos bp vel)) (fun p s' => placed m s' p /\ p_sol p = r /\ good s' (p_best p) /\ ~ live s (p_best p) /\
        (honest E s r -> honest E s' (p_best p))) s1).
  { intros s1 pos bp vel G1 HS. eapply safe_bind; [apply safe_clone; [inv_of G1|eapply grow_good; eauto]|].
    intros b s2 G2 (Hb & Hl & Hsh). cbv beta. apply safe_ret; [inv_of G2|]. cbn [p_sol p_best].
    split; [split; [eapply grow_good; [exact G2|]; eapply grow_good; eauto|split; [left; auto|apply HS]]|].
    split; auto. split; auto. split; [eapply not_live_grow; eauto|]. intros Hh. apply (grow_honest _ _ _ _ _ G1) in Hh.
    destruct Hh as (bb & a & g & g' & H1 & H2). exists bb, a, g, g'. split; auto. }
  destruct m as [b c vmax| |pl na].
  - eapply safe_bind; [apply safe_randoms; auto|]. intros us s1 G1 [HLu _]. cbv beta.
    eapply safe_bind; [apply safe_draws; inv_of G1|]. intros qs s2 G2 HLq. cbv beta zeta in *. apply HC; [eapply grow_trans; eauto|].
    intros best. cbn. split; [|split]; try (rewrite map_length; lia); apply start_position_length; lia.
  - eapply safe_bind; [apply safe_randoms; auto|]. intros us s1 G1 [HLu _]. cbv beta zeta. apply HC; [auto|].
    intros best. cbn. split; apply start_position_length; lia.
  - apply HC; [apply grow_refl; auto|]. intros best. exact Logic.I.
Qed.

Lemma safe_best_by h key ps s : inv s -> Forall (fun p => held s (key p)) ps ->
  safe h (best_by key ps) (fun p s' => s' = s /\ In p ps) s.
Proof.
  intros I HF. unfold best_by.
  assert (HK : (exists ks, mmap (fun p => let* f := fitness (key p) in ret (f, p)) ps s = (Ok ks, s) /\ map snd ks = ps) \/
               mmap (fun p => let* f := fitness (key p) in ret (f, p)) ps s = (Raise AttributeError, s)).
  { induction HF as [|p ps Hp _ IH]; [left; exists []; auto|]. cbn [mmap].
    apply held_vw in Hp as (bits & a & x & HV & _). pose proof (fitness_eq _ _ _ _ _ HV) as HFt. destruct a as [a|]; cbn in HFt.
    - assert (H1 : (let* f := fitness (key p) in ret (f, p)) s = (Ok (sfitness a, p), s)) by (rewrite (bind_ok _ _ _ _ _ HFt); reflexivity).
      rewrite (bind_ok _ _ _ _ _ H1). destruct IH as [(ks & H2 & H3)|H2].
      + left. exists ((sfitness a, p) :: ks). rewrite (bind_ok _ _ _ _ _ H2). split; auto. cbn. congruence.
      + right. rewrite (bind_raise _ _ _ _ _ H2). reflexivity.
    - right. assert (H1 : (let* f := fitness (key p) in ret (f, p)) s = (Raise AttributeError, s)) by (rewrite (bind_raise _ _ _ _ _ HFt); reflexivity).
      rewrite (bind_raise _ _ _ _ _ H1). reflexivity. }
  destruct HK as [(ks & HE & HM)|HE].
  - eapply safe_bind; [eapply (safe_pure E A h _ (fun k s' => s' = s /\ k = ks)); [auto|exact HE|cbn; auto]|].
    intros k s0 _ [-> ->]. destruct (pymax _ ks) as [b|] eqn:EP; cbn [of_option].
    + eapply safe_bind; [apply (safe_lift E A h (Ok b) (fun x s' => x = b /\ s' = s)); auto; cbn; auto|]. intros x s0 _ [-> ->].
      apply safe_ret; auto. split; auto. rewrite <- HM. apply in_map. clear - EP. destruct ks as [|k ks]; [discriminate|]. cbn in EP. injection EP as <-.
      revert k. induction ks as [|y ks IH]; intros k; cbn [fold_left]; [left; auto|].
      destruct (IH (max_step (fun a b => nlt (fst a) (fst b)) k y)) as [H|H]; [|right; right; auto].
      rewrite <- H. unfold max_step. destruct (nlt _ _); [right; left; auto|left; auto].
    + eapply safe_bind; [apply (safe_lift E A h (Raise ValueError) (fun _ _ => False)); auto; cbn; notbad|]. intros x s0 _ [].
  - eapply safe_bind; [eapply (safe_pure E A h _ (fun _ _ => False)); [auto|exact HE|cbn; notbad]|]. intros k s0 _ [].
Qed.
Lemma safe_first h ps s : inv s -> safe h (first_particle ps) (fun p s' => s' = s /\ In p ps) s.
Proof.
  intros I. unfold first_particle. apply safe_lift; auto. destruct ps as [|p ps]; cbn; [notbad|auto].
Qed.
Lemma placed_sols m s ps : Forall (placed m s) ps -> Forall (fun p => held s (p_sol p)) ps.
Proof. apply Forall_impl. intros p (H & _). left; auto. Qed.
Lemma placed_bests m s ps : Forall (placed m s) ps -> Forall (fun p => held s (p_best p)) ps.
Proof. apply Forall_impl. intros p (_ & H & _). auto. Qed.

Definition moved m s' p p' : Prop := p_sol p' = p_sol p /\ p_best p' = p_best p /\ placed m s' p'.
Lemma grow_moved h m s s' p p' : grow E A h s s' -> moved m s p p' -> moved m s' p p'.
Proof. intros G (H1 & H2 & H3). split; auto. split; auto. eapply grow_placed; eauto. Qed.

Lemma safe_classic_move M b c vmax a g k p s : inv s -> placed (MSigmoid b c vmax) s p -> k = n -> length g = n ->
  safe false (classic_move M b c vmax a g k p) (fun p' s' => moved (MSigmoid b c vmax) s' p p') s.
Proof.
  intros I HP -> Hg. pose proof HP as (HG & HB & H1 & H2 & H3). unfold classic_move.
  eapply safe_bind; [apply safe_randoms; auto|]. intros u1 s1 G1 [HL1 _]. cbv beta.
  eapply safe_bind; [apply safe_randoms; inv_of G1|]. intros u2 s2 G2 [HL2 _]. cbv beta zeta.
  pose proof (grow_trans _ _ _ _ _ _ G1 G2) as G.
  match goal with |- context[sigmoid_binarize M ?X] => set (pos := X) end.
  match goal with |- context[mkPart _ _ pos _ ?X] => set (vel := X) in * end.
  assert (Hv : length vel = n) by (unfold vel; lens). assert (Hp : length pos = n) by (unfold pos; lens).
  eapply safe_bind; [apply safe_sigmoid_binarize; inv_of G|]. intros bits s3 G3 Hb. cbv beta in *.
  pose proof (grow_trans _ _ _ _ _ _ G G3) as G'.
  eapply safe_bind; [apply safe_set_genome; [inv_of G3|eapply grow_good; eauto|]; fold n; lia|]. intros u0 s4 G4 Hs. cbv beta in *.
  apply safe_ret; [inv_of G4|]. split; auto. split; auto. split; [exact Hs|]. split; [|cbn; auto]. cbn [p_best].
  eapply grow_held; [exact G4|]. eapply grow_held; eauto.
Qed.
Lemma safe_quantum_move M a g mean k p s : inv s -> placed MSigmoidQuantum s p -> k = n -> length g = n -> length mean = n ->
  safe false (quantum_move M a g mean k p) (fun p' s' => moved MSigmoidQuantum s' p p') s.
Proof.
  intros I HP -> Hg Hm. pose proof HP as (HG & HB & H1 & H2). unfold quantum_move.
  eapply safe_bind; [apply safe_randoms; auto|]. intros u1 s1 G1 [HL1 _]. cbv beta.
  eapply safe_bind; [apply safe_randoms; inv_of G1|]. intros u2 s2 G2 [HL2 _]. cbv beta.
  pose proof (grow_trans _ _ _ _ _ _ G1 G2) as G12.
  eapply safe_bind with (Q := fun _ _ => True).
  { apply safe_rnd; [inv_of G12|]. cbn. exact Logic.I. }
  intros sign s2' G2' _. cbv beta zeta.
  pose proof (grow_trans _ _ _ _ _ _ G12 G2') as G.
  match goal with |- context[sigmoid_binarize M ?X] => set (pos := X) end.
  assert (Hp : length pos = n) by (unfold pos; lens).
  eapply safe_bind; [apply safe_sigmoid_binarize; inv_of G|]. intros bits s3 G3 Hb. cbv beta in *.
  pose proof (grow_trans _ _ _ _ _ _ G G3) as G'.
  eapply safe_bind; [apply safe_set_genome; [inv_of G3|eapply grow_good; eauto|]; fold n; lia|]. intros u0 s4 G4 Hs. cbv beta in *.
  apply safe_ret; [inv_of G4|]. split; auto. split; auto. split; [exact Hs|]. split; [|cbn; auto]. cbn [p_best].
  eapply grow_held; [exact G4|]. eapply grow_held; eauto.
Qed.
Lemma safe_best_random h m ps k s : inv s -> Forall (placed m s) ps ->
  safe h (best_random ps k) (fun p s' => In p ps) s.
Proof.
  intros I HP. unfold best_random. eapply safe_bind; [apply safe_any_choices; auto|]. intros sub s1 G1 [_ HS]. cbv beta.
  eapply safe_post; [apply safe_best_by; [inv_of G1|]|].
  - apply Forall_forall. intros p Hp. eapply grow_held; [exact G1|]. rewrite Forall_forall in HS, HP. apply (HP p (HS p Hp)).
  - intros p s2 _ [_ Hp]. rewrite Forall_forall in HS. auto.
Qed.
Lemma overwrite_length mask a b k : length mask = k -> length a = k -> length b = k -> length (overwrite mask a b) = k.
Proof. intros. unfold overwrite. lens. Qed.
Lemma safe_attractor h m pl na ps p s : inv s -> Forall (placed m s) ps -> In p ps ->
  safe h (attractor pl na n ps p) (fun bits s' => length bits = n) s.
Proof.
  intros I HP Hp. pose proof HP as HP0. rewrite Forall_forall in HP0. destruct (HP0 p Hp) as (HG & HB & HS). unfold attractor.
  eapply safe_bind; [apply safe_genome_held; eauto|]. intros own s0 _ (-> & Hown & _). cbv beta.
  eapply safe_bind; [apply safe_randoms; auto|]. intros us s1 G1 [HLu _]. cbv beta.
  pose proof (grow_placeds _ _ _ _ _ G1 HP) as HP1.
  eapply safe_bind; [eapply safe_best_random; [inv_of G1|exact HP1]|]. intros nb s2 G2 Hnb. cbv beta in *.
  pose proof (grow_placeds _ _ _ _ _ G2 HP1) as HP2. pose proof HP2 as HP2'. rewrite Forall_forall in HP2'.
  eapply safe_bind; [apply safe_genome_held; [inv_of G2|apply (HP2' nb Hnb)]|]. intros gn s0 _ (-> & Hgn & _). cbv beta zeta.
  assert (HL1 : length (overwrite (map (fun u => qle u pl) us) own gn) = n) by (apply overwrite_length; auto; rewrite map_length; auto).
  destruct (Nat.eqb _ 0).
  - eapply safe_bind with (Q := fun _ _ => True).
    { apply (safe_rnd1 E A h draw (fun _ => True)); [inv_of G2|exact Logic.I]. }
    intros q s3 G3 _. cbv beta. pose proof (grow_placeds _ _ _ _ _ G3 HP2) as HP3.
    eapply safe_bind; [eapply safe_best_random; [inv_of G3|exact HP3]|]. intros nb2 s4 G4 Hnb2. cbv beta in *.
    pose proof (grow_placeds _ _ _ _ _ G4 HP3) as HP4. rewrite Forall_forall in HP4.
    eapply safe_bind; [apply safe_genome_held; [inv_of G4|apply (HP4 nb2 Hnb2)]|]. intros gn2 s0 _ (-> & Hgn2 & _). cbv beta.
    apply safe_ret; [inv_of G4|]. rewrite update_length. exact HL1.
  - apply safe_ret; [inv_of G2|exact HL1].
Qed.
Lemma write_overwrite_length (mask att : list bool) : forall b : list bool,
  length mask = length att -> length b = length mask -> length (overwrite mask b att) = length b.
Proof. intros b H1 H2. rewrite (overwrite_length mask b att (length b)); auto. lia. Qed.
Lemma safe_write_good f s r : inv s -> good s r -> (forall b, length b = n -> length (f b) = n) ->
  safe false (write_genome r f) (fun _ s' => good s' r) s.
Proof.
  intros I HG HF. pose proof HG as (HN & b & a & x & HV & HL). unfold L_Safe.safe.
  destruct (write_genome_eq s r _ _ _ f (proj1 I) HV) as (s' & -> & W' & HLen & HV').
  apply (grow_at E A false s s' r (f b) a x); auto. discriminate.
Qed.
Lemma safe_binary_move M m a mean p att s : inv s -> placed m s p -> length att = n ->
  safe false (binary_move M a n mean p att) (fun _ _ => True) s.
Proof.
  intros I (HG & HB & _) Ha. unfold binary_move.
  eapply safe_bind; [apply safe_genome; auto|]. intros own s0 _ (-> & Hown & _). cbv beta.
  eapply safe_bind; [apply safe_random; auto|]. intros u s1 G1 _. cbv beta. destruct (Qeq_bool u 0); [apply safe_raise; notbad|]. cbv zeta.
  eapply safe_bind; [apply safe_randoms; inv_of G1|]. intros us s2 G2 [HLu _]. cbv beta.
  eapply safe_post; [apply safe_write_good; [inv_of G2|eapply grow_good; [exact G2|]; eapply grow_good; eauto|]|auto].
  intros b Hb. apply overwrite_length; auto. rewrite map_length; auto.
Qed.

Lemma moved_same m s ps : Forall (placed m s) ps -> Forall2 (moved m s) ps ps.
Proof. induction 1; constructor; auto. split; auto. Qed.
Lemma safe_move M m a ps s : inv s -> Forall (placed m s) ps ->
  safe false (move M m a ps) (fun ps' s' => Forall2 (moved m s') ps ps') s.
Proof.
  intros I HP. destruct m as [b c vmax| |pl na]; cbn [move].
  - eapply safe_bind; [apply safe_best_by; [auto|eapply placed_sols; eauto]|]. intros g s0 _ (-> & Hg). cbv beta.
    eapply safe_bind; [apply safe_first; auto|]. intros p0 s0 _ (-> & Hp0). cbv beta.
    pose proof HP as HP0. rewrite Forall_forall in HP0.
    apply (safe_mmap E A false _ (fun p p' s' => moved (MSigmoid b c vmax) s' p p')); auto.
    + intros. eapply grow_moved; eauto.
    + intros p s1 Hp G1. apply safe_classic_move; [inv_of G1|eapply grow_placed; eauto| |]; [apply (HP0 p0 Hp0)|apply (HP0 g Hg)].
  - eapply safe_bind; [apply safe_best_by; [auto|eapply placed_sols; eauto]|]. intros g s0 _ (-> & Hg). cbv beta.
    eapply safe_bind; [apply safe_first; auto|]. intros p0 s0 _ (-> & Hp0). cbv beta zeta.
    pose proof HP as HP0. rewrite Forall_forall in HP0.
    assert (Hn : length (p_pos p0) = n) by apply (HP0 p0 Hp0).
    apply (safe_mmap E A false _ (fun p p' s' => moved MSigmoidQuantum s' p p')); auto.
    + intros. eapply grow_moved; eauto.
    + intros p s1 Hp G1. apply safe_quantum_move; [inv_of G1|eapply grow_placed; eauto|auto|apply (HP0 g Hg)|].
      unfold column_means. rewrite map_length, seq_length. auto.
  - eapply safe_bind with (Q := fun _ s' => s' = s).
    { clear - I HP. revert I HP. induction ps as [|p ps IH]; intros I HP; cbn [mmap]; [apply safe_ret; auto|]. inversion HP as [|? ? (HG & _) HP']; subst.
      eapply safe_bind; [apply safe_genome; auto|]. intros b s0 _ (-> & _). cbv beta. eapply safe_bind; [apply IH; auto|]. intros bs s0 _ ->. apply safe_ret; auto. }
    intros gs s0 _ ->. cbv beta. eapply safe_bind; [apply safe_first; auto|]. intros p0 s0 _ (-> & Hp0). cbv beta.
    pose proof HP as HP0. rewrite Forall_forall in HP0.
    eapply safe_bind; [apply safe_genome; [auto|apply (HP0 p0 Hp0)]|]. intros g0 s0 _ (-> & Hg0 & _). cbv beta zeta. rewrite Hg0. fold n.
    eapply safe_bind with (Q := fun _ _ => True).
    { apply (safe_rnd1 E A false (binary_mean n gs) (fun _ => True)); [auto|exact Logic.I]. }
    intros mean s1 G1 _. cbv beta. pose proof (grow_placeds _ _ _ _ _ G1 HP) as HP1.
    eapply safe_bind.
    { apply (safe_mmap E A false (attractor pl na n ps) (fun _ bits _ => length bits = n)); [inv_of G1|auto|].
      intros p s2 Hp G2. eapply safe_attractor; [inv_of G2|exact (grow_placeds _ _ _ _ _ G2 HP1)|exact Hp]. }
    intros atts s2 G2 HA2. cbv beta in *. pose proof (grow_placeds _ _ _ _ _ G2 HP1) as HP2.
    eapply safe_bind.
    { apply (safe_miter E A false (fun pa : particle * list bool => binary_move M a n mean (fst pa) (snd pa)) (fun _ _ => True)); [inv_of G2|auto|].
      intros [p att] s3 Hpa G3. cbn [fst snd]. eapply safe_binary_move; [inv_of G3| |].
      - pose proof (grow_placeds _ _ _ _ _ G3 HP2) as HP3. rewrite Forall_forall in HP3. apply HP3. eapply in_combine_l; eauto.
      - apply in_combine_r in Hpa. clear - HA2 Hpa. induction HA2 as [|? ? ? ? H _ IH]; [destruct Hpa|]. destruct Hpa as [<-|Hpa]; auto. }
    intros u s3 G3 _. cbv beta. apply safe_ret; [inv_of G3|]. apply moved_same. eapply grow_placeds; eauto.
Qed.
Lemma safe_update_best m p s : inv s -> placed m s p ->
  safe true (update_best p) (fun p' s' => placed m s' p' /\ p_sol p' = p_sol p /\
    exists f fb, has_fit s (p_sol p) f /\ has_fit s (p_best p) fb /\
      (nlt fb f = false /\ p' = p \/
       nlt fb f = true /\ good s' (p_best p') /\ ~ live s (p_best p') /\ has_fit s' (p_best p') f /\ (honest E s (p_sol p) -> honest E s' (p_best p')))) s.
Proof.
  intros I HP. pose proof HP as (HG & HB & HS). unfold update_best.
  eapply safe_bind; [apply safe_fitness_held; [auto|left; eauto]|]. intros f s0 _ (-> & Hf). cbv beta.
  eapply safe_bind; [apply safe_fitness_held; eauto|]. intros fb s0 _ (-> & Hfb). cbv beta.
  destruct (nlt fb f) eqn:EL.
  - eapply safe_bind; [apply safe_clone; auto|]. intros c s1 G1 (Hc & Hl & Hsh). cbv beta. apply safe_ret; [inv_of G1|].
    cbn [p_sol p_best]. split; [split; [eapply grow_good; eauto|]; split; [left; auto|]|].
    + destruct m; cbn in *; intuition.
    + split; auto. exists f, fb. split; auto. split; auto. right. split; auto. split; auto. split; auto. split.
      * destruct Hf as (b & a & H1 & ->). exists b, a. auto.
      * intros (b & a & g & g' & H1 & H2). exists b, a, g, g'. auto.
  - apply safe_ret; auto. split; auto. split; auto. exists f, fb. auto.
Qed.

(* one iteration, all particles *)
Lemma moved_sols m s ps ps' : Forall2 (moved m s) ps ps' -> map p_sol ps' = map p_sol ps.
Proof. induction 1 as [|p p' ps ps' (H & _) _ IH]; cbn; congruence. Qed.
Lemma moved_bests m s ps ps' : Forall2 (moved m s) ps ps' -> map p_best ps' = map p_best ps.
Proof. induction 1 as [|p p' ps ps' (_ & H & _) _ IH]; cbn; congruence. Qed.
Lemma moved_placed m s ps ps' : Forall2 (moved m s) ps ps' -> Forall (placed m s) ps'.
Proof. induction 1 as [|p p' ps ps' (_ & _ & H) _ IH]; constructor; auto. Qed.
Lemma placed_good m s ps : Forall (placed m s) ps -> Forall (good s) (map p_sol ps).
Proof. intros H. apply Forall_map. revert H. apply Forall_impl. intros p H; apply H. Qed.
Lemma safe_update_all m ps s : inv s -> Forall (placed m s) ps ->
  safe true (mmap update_best ps) (fun ps' s' => Forall (placed m s') ps' /\ map p_sol ps' = map p_sol ps) s.
Proof.
  intros I HP. eapply safe_post.
  - apply (safe_mmap E A true update_best (fun p p' s' => placed m s' p' /\ p_sol p' = p_sol p)); auto.
    + intros p p' s1 s2 G [H1 H2]. split; auto. eapply grow_placed; eauto.
    + intros p s1 Hp G1. rewrite Forall_forall in HP. eapply safe_post; [apply safe_update_best; [inv_of G1|eapply grow_placed; [exact G1|apply (HP p Hp)]]|].
      intros p' s2 _ (H1 & H2 & _). auto.
  - cbv beta. intros ps' s' _ H. clear - H. induction H as [|p p' ps ps' [H1 H2] _ [IH1 IH2]]; cbn; auto. split; [constructor; auto|congruence].
Qed.
Lemma safe_swarm_step M c pop ps a s : inv s -> Forall (placed (ps_move c) s) ps -> map p_sol ps = pop ->
  safe false (swarm_step M c E pop (ps, a)) (fun z s' => Forall (placed (ps_move c) s') (fst z) /\ map p_sol (fst z) = pop /\ Forall (honest E s') pop) s.
Proof.
  intros I HP HM. cbn [swarm_step]. eapply safe_bind; [apply safe_move; eauto|]. intros ps1 s1 G1 HV. cbv beta.
  pose proof (moved_placed _ _ _ _ HV) as HP1. pose proof (moved_sols _ _ _ _ HV) as HM1.
  eapply safe_bind; [apply safe_fit_all; [inv_of G1|]|]. { rewrite <- HM, <- HM1. eapply placed_good; eauto. }
  intros pop' s2 G2 (-> & HG2 & HH2). cbv beta. pose proof (grow_placeds _ _ _ _ _ G2 HP1) as HP2.
  apply safe_bind with (Q := fun ps' s' => Forall (placed (ps_move c) s') ps' /\ map p_sol ps' = map p_sol ps1 /\ Forall (honest E s') pop).
  - pose proof (safe_update_all _ ps1 s2 (grow_inv _ _ _ _ _ G2) HP2) as H. unfold L_Safe.safe in *. destruct (mmap update_best ps1 s2) as [[ps'|e] s3]; auto.
    destruct H as [G3 [H1 H2]]. split; [apply grow_weak; auto|]. split; auto. split; auto. eapply grow_honests; eauto.
  - intros ps2 s3 G3 (H1 & H2 & H3). apply safe_ret; [inv_of G3|]. cbn [fst]. split; auto. split; [congruence|auto].
Qed.
Lemma safe_swarm_run M c ini pop s : inv s -> Forall (good s) pop ->
  safe false (swarm_run M c L E ini pop tt) (fun r s' => Forall (good s') (fst r) /\ Forall (honest E s') (fst r) /\ fst r = pop) s.
Proof.
  intros I HG. unfold swarm_run. eapply safe_bind; [apply safe_fit_all; auto|]. intros p s1 G1 (-> & H1 & H2). cbv beta.
  destruct (Nat.eqb (ps_iter c) 0) eqn:E0; [apply safe_raise; notbad|].
  eapply safe_bind.
  { apply (safe_mmap E A false (init_particle (ps_move c)) (fun r p s' => placed (ps_move c) s' p /\ p_sol p = r)); [inv_of G1| |].
    - intros r p s2 s3 G [H3 H4]. split; auto. eapply grow_placed; eauto.
    - intros r s2 Hr G2. eapply safe_post; [apply safe_weak, safe_init_particle; [inv_of G2|eapply grow_good; [exact G2|]; rewrite Forall_forall in H1; auto]|].
      intros p s3 _ (H3 & H4 & _). auto. }
  intros ps s2 G2 HP. cbv beta in *.
  assert (HP2 : Forall (placed (ps_move c) s2) ps /\ map p_sol ps = pop).
  { clear - HP. induction HP as [|r p pop ps [H1 H2] _ [IH1 IH2]]; cbn; auto. split; [constructor; auto|congruence]. }
  destruct HP2 as [HP2 HM].
  apply safe_bind with (Q := fun z s' => Forall (placed (ps_move c) s') (fst z) /\ map p_sol (fst z) = pop /\ Forall (honest E s') pop).
  - destruct (ps_iter c) as [|k]; [discriminate|]. cbn [iterate].
    eapply safe_bind; [apply safe_swarm_step; [inv_of G2|exact HP2|exact HM]|]. intros z s3 G3 HZ. cbv beta.
    apply (safe_iterate E A false _ (fun z s' => Forall (placed (ps_move c) s') (fst z) /\ map p_sol (fst z) = pop /\ Forall (honest E s') pop)); [inv_of G3|exact HZ|].
    intros [qs b] s4 I4 (Ha & Hb & _). cbn [fst] in *. apply safe_swarm_step; auto.
  - intros z s3 G3 (Ha & Hb & Hc). cbv beta. apply safe_ret; [inv_of G3|]. cbn [fst]. split; [|auto]. rewrite <- Hb. eapply placed_good; eauto.
Qed.

(* ----- wolves ----- *)
Lemma wolf_A_length a us : length (wolf_A a us) = length us. Proof. apply map_length. Qed.
Lemma wolf_D_length p w us k : length p = k -> length w = k -> length us = k -> length (wolf_D p w us) = k.
Proof. intros. unfold wolf_D. lens. Qed.
Lemma safe_binary_X h M a l w s : inv s -> length l = n -> length w = n ->
  safe h (binary_X M a l w) (fun x _ => length x = n) s.
Proof.
  intros I Hl Hw. unfold binary_X. cbv zeta. rewrite Hl.
  eapply safe_bind; [apply safe_randoms; auto|]. intros u1 s1 G1 [HL1 _]. cbv beta.
  eapply safe_bind; [apply safe_randoms; inv_of G1|]. intros u2 s2 G2 [HL2 _]. cbv beta.
  eapply safe_bind; [apply safe_sigmoid_binarize; inv_of G2|]. intros cpos s3 G3 HL3. cbv beta in *.
  eapply safe_bind; [apply safe_randoms; inv_of G3|]. intros u3 s4 G4 [HL4 _]. cbv beta zeta.
  assert (length cpos = n). { rewrite HL3. apply map2_len; [rewrite wolf_A_length; auto|apply wolf_D_length; auto]. }
  apply safe_ret; [inv_of G4|]. lens.
Qed.
Lemma safe_wolf_X h a l w s : inv s -> length l = n -> length w = n ->
  safe h (wolf_X a l w) (fun x _ => length x = n) s.
Proof.
  intros I Hl Hw. unfold wolf_X. cbv zeta. rewrite Hl.
  eapply safe_bind; [apply safe_randoms; auto|]. intros u1 s1 G1 [HL1 _]. cbv beta.
  eapply safe_bind; [apply safe_randoms; inv_of G1|]. intros u2 s2 G2 [HL2 _]. cbv beta.
  apply safe_ret; [inv_of G2|]. apply map2_len; [auto|]. apply combine_len; [rewrite wolf_A_length; auto|apply wolf_D_length; auto].
Qed.
Lemma safe_wolf_move h M p a leaders r s : inv s -> good s r -> Forall (good s) leaders ->
  safe h (wolf_move M p a leaders r) (fun c s' => good s' c /\ ~ live s c) s.
Proof.
  intros I HG HLd. unfold wolf_move. eapply safe_bind; [apply safe_genome; eauto|]. intros w s0 _ (-> & Hw & _). cbv beta.
  eapply safe_bind with (Q := fun ls s' => s' = s /\ Forall (fun l => length l = n) ls).
  { clear - I HLd. revert HLd. induction leaders as [|l ls IH]; intros HLd; cbn [mmap]; [apply safe_ret; auto|]. inversion HLd; subst.
    eapply safe_bind; [apply safe_genome; eauto|]. intros b s0 _ (-> & Hb & _). cbv beta. eapply safe_bind; [apply IH; auto|].
    intros bs s0 _ (-> & Hbs). apply safe_ret; auto. }
  intros ls s0 _ (-> & Hls). cbv beta. rewrite Forall_forall in Hls.
  eapply safe_bind with (Q := fun b _ => length b = n).
  { destruct p.
    - unfold wolf_crossover. eapply safe_bind.
      { apply (safe_mmap E A h _ (fun l x (_ : hst plain) => length x = n)); auto. intros l s1 Hl G1. apply safe_binary_X; auto. inv_of G1. }
      intros xs s1 G1 _. cbv beta. destruct (_ || _); [apply safe_raise; notbad|].
      eapply safe_bind; [apply safe_draws; inv_of G1|]. intros qs s2 G2 Hq. cbv beta in *. apply safe_ret; [inv_of G2|]. rewrite mapi_length. lia.
    - unfold wolf_sigmoid. eapply safe_bind.
      { apply (safe_mmap E A h _ (fun l x (_ : hst plain) => length x = n)); auto. intros l s1 Hl G1. apply safe_wolf_X; auto. inv_of G1. }
      intros xs s1 G1 _. cbv beta. destruct (Nat.eqb _ 0); [apply safe_raise; notbad|].
      eapply safe_post; [apply safe_sigmoid_binarize; inv_of G1|]. intros b s2 _ Hb. rewrite Hb, map_length, seq_length. exact Hw. }
  intros bits s1 G1 Hb. cbv beta in *. eapply safe_post; [apply safe_clone_with; [inv_of G1|eapply grow_good; eauto|exact Hb]|].
  intros c s2 G2 (Hc & Hl & _). split; auto. eapply not_live_grow; eauto.
Qed.
Lemma safe_wolf_step M c pop a s : inv s -> Forall (good s) pop ->
  safe true (wolf_step M c E (pop, a)) (fun z s' => Forall (good s') (fst z) /\ Forall (honest E s') (fst z) /\ length (fst z) = length pop /\
     Forall (fun r => ~ live s r) (fst z)) s.
Proof.
  intros I HG. cbn [wolf_step]. eapply safe_bind; [apply safe_by_fitness; auto|]. intros ranked s0 _ (-> & HP). cbv beta.
  assert (HR : Forall (good s) (firstn (w_leaders c) ranked)).
  { apply Forall_forall. intros r Hr. apply In_firstn in Hr. rewrite Forall_forall in HG. apply HG. eapply Permutation_in; eauto. }
  eapply safe_bind.
  { apply (safe_mmap E A true _ (fun _ r s' => good s' r /\ ~ live s r)); auto.
    - intros x r s1 s2 G [H1 H2]. split; auto. eapply grow_good; eauto.
    - intros r s1 Hr G1. rewrite Forall_forall in HG. eapply safe_post; [apply safe_wolf_move; [inv_of G1|eapply grow_good; eauto|eapply grow_goods; eauto]|].
      intros x s2 G2 [H1 H2]. split; auto. eapply not_live_grow; eauto. }
  intros new s1 G1 HN. cbv beta in *.
  assert (HN1 : Forall (good s1) new /\ Forall (fun r => ~ live s r) new /\ length new = length pop).
  { clear - HN. induction HN as [|x y ? ? [H1 H2] _ (IH1 & IH2 & IH3)]; cbn; auto. }
  destruct HN1 as (HN1 & HN2 & HN3).
  eapply safe_bind; [apply safe_fit_all; [inv_of G1|exact HN1]|]. intros pop' s2 G2 (-> & H1 & H2). cbv beta.
  apply safe_ret; [inv_of G2|]. cbn [fst]. auto.
Qed.
Lemma safe_wolf_run M c ini pop s : inv s -> Forall (good s) pop ->
  safe true (wolf_run M c L E ini pop tt) (fun r s' => Forall (good s') (fst r) /\ Forall (honest E s') (fst r) /\ length (fst r) = length pop) s.
Proof.
  intros I HG. unfold wolf_run. eapply safe_bind; [apply safe_fit_all; auto|]. intros p s1 G1 (-> & H1 & H2). cbv beta.
  destruct (Nat.eqb (w_iter c) 0); [apply safe_raise; notbad|].
  eapply safe_bind.
  - apply (safe_iterate E A true _ (fun z s' => Forall (good s') (fst z) /\ Forall (honest E s') (fst z) /\ length (fst z) = length pop)); [inv_of G1|cbn; auto|].
    intros [q a] s2 I2 (Ha & Hb & Hc). cbn [fst] in *. eapply safe_post; [apply safe_wolf_step; auto|]. intros z s3 _ (H3 & H4 & H5 & _). split; auto. split; auto. lia.
  - intros z s2 G2 HZ. cbv beta. apply safe_ret; [inv_of G2|]. exact HZ.
Qed.
End Swarm.

Lemma swarm_contract M c : contract (swarm M c) (fun _ _ => True).
Proof.
  split; [auto|]. intros L E A ini s pop i I HG _ _. destruct i. cbn [orun swarm]. eapply safe_post; [apply safe_swarm_run; auto|].
  intros r s' _ (H1 & H2 & _). auto.
Qed.
Lemma wolves_contract M c : contract (wolves M c) (fun _ _ => True).
Proof.
  split; [auto|]. intros L E A ini s pop i I HG _ _. destruct i. cbn [orun wolves]. eapply safe_post; [apply safe_weak, safe_wolf_run; auto|].
  intros r s' _ (H1 & H2 & _). auto.
Qed.
