(* Parents and children of one generation. *)
From Coq Require Import Permutation Sorting.Sorted Lia.
From Verif Require Import PyNum PyList PyMon PyRng L_Num L_List L_Rng M_Matching S_Matching M_Rule S_Rule M_RuleGen L_RuleGen M_Mixing M_GenomeOps M_Discovery S_Discovery L_Discovery L_DiscoveryProps L_SasProps
  M_Novelty S_Novelty L_Novelty L_NoveltyNum L_NoveltyScore L_NoveltyProps L_NoveltyRun L_NoveltyEx S_Breed L_Breed.
From Coq Require Import Lqa.

Lemma pairs_length {A} (l : list A) : length (pairs l) = Nat.div2 (length l).
Proof.
  assert (H : forall n l, (length l <= n)%nat -> length (@pairs A l) = Nat.div2 (length l)); [|apply (H (length l)); lia].
  clear l. induction n as [|n IH]; intros [|a [|b l]] Hl; cbn in *; try reflexivity; [lia|]. rewrite IH by lia. reflexivity.
Qed.
Lemma pairs_nth {A} (l : list A) k p q : nth_error l (2 * k) = Some p -> nth_error l (2 * k + 1) = Some q -> nth_error (pairs l) k = Some (p, q).
Proof.
  revert l. induction k as [|k IH]; intros l Hp Hq.
  - destruct l as [|a [|b l]]; cbn in *; congruence.
  - replace (2 * S k)%nat with (S (S (2 * k))) in * by lia. destruct l as [|a [|b l]]; cbn [nth_error Nat.add pairs] in *; try discriminate. apply IH; assumption.
Qed.
Lemma forall2_at {T U} (R : T -> U -> Prop) a b : Forall2 R a b -> forall i x, nth_error a i = Some x -> exists y, nth_error b i = Some y /\ R x y.
Proof. induction 1 as [|u v a b Huv H IH]; intros [|i] x; cbn; intros Hx; try discriminate; [inversion Hx; subst; eauto|auto]. Qed.
Lemma concat_twos {A} (ls : list (list A)) : Forall (fun l => length l = 2%nat) ls -> length (concat ls) = (2 * length ls)%nat /\
  forall k a b, nth_error ls k = Some [a; b] -> nth_error (concat ls) (2 * k) = Some a /\ nth_error (concat ls) (2 * k + 1) = Some b.
Proof.
  induction 1 as [|l ls Hl HF [IH1 IH2]]; [split; [reflexivity|intros [|k]; discriminate]|]. destruct l as [|x [|y [|]]]; try discriminate. split; [cbn [concat length app]; lia|].
  intros [|k] a b H; cbn in H; [injection H as -> ->; split; reflexivity|]. replace (2 * S k)%nat with (S (S (2 * k))) by lia. cbn [concat app nth_error Nat.add]. apply IH2. exact H.
Qed.
Lemma select_len {A} (fit err : A -> num) (vol : A -> Q) same s rs n g ks g' : select_rules fit err vol same s rs n g = (Ok ks, g') -> (length ks <= n)%nat.
Proof.
  intros H. destruct s; cbn [select_rules] in H.
  - injection H as <- <-. unfold fittest_n. rewrite firstn_length. lia.
  - set (m := match filter _ rs with [] => _ | _ => _ end) in H.
    assert (HM : forall o g2, m g = (Ok o, g2) -> length o = n).
    { intros o g2. unfold m. destruct (filter _ rs) as [|k0 ks0]; intros E; [apply choices_ok in E; apply E|]. unfold choices_num in E. destruct (finites _) as [qs|]; [|discriminate]. apply choices_p_ok in E. apply E. }
    destruct (m g) as [[o|e] g2] eqn:E; [|destruct e; inversion H; subst; cbn; lia]. injection H as <- <-. rewrite (HM o g2 eq_refl). lia.
  - apply bind_inv in H as (c & g2 & H1 & H). apply choices_ok in H as [-> _]. lia.
  - apply choices_ok in H as [-> _]. lia.
Qed.
Lemma crossover_two c a b g cs g' : crossover (ns_rate c) (d_type (ns_d c)) a b g = (Ok cs, g') -> exists x y, cs = [x; y] /\
  forall m, m = x \/ m = y -> m = a \/ m = b \/ (0 < ns_rate c /\ d_type (ns_d c) = OrderedBound /\ recombines m a b).
Proof.
  intros H. unfold crossover in H. apply bind_inv in H as (u & g1 & H1 & H).
  assert (Hu : 0 <= u) by (destruct (random g) as [v gv] eqn:E; injection H1 as <- <-; unfold random in E; injection E as <- _; apply u01_range).
  destruct (qlt_spec u (ns_rate c)) as [Hlt|_]; [|injection H as <- <-; exists a, b; split; [reflexivity|intros m [->| ->]; auto]].
  destruct (d_type (ns_d c)) eqn:ED; try discriminate. apply crossed_ok in H as (a' & b' & -> & T1 & T2 & L1 & L2 & HI). exists a', b'. split; [reflexivity|].
  assert (HM : forall m, mt m = mt a \/ mt m = mt b -> length (bnd m) = length (bnd a) -> (forall i p q, (i < length (bnd a))%nat -> nth_error (bnd a) i = Some p -> nth_error (bnd b) i = Some q -> nth_error (bnd m) i = Some p \/ nth_error (bnd m) i = Some q) -> recombines m a b).
  { intros m Hm1 Hm2 Hm3. split; [exact Hm1|]. split; [left; exact Hm2|]. intros k v Hv. assert (Hk : (k < length (bnd a))%nat) by (rewrite <- Hm2; apply nth_error_Some; congruence).
    destruct (HI k Hk) as (p & q & Hp & Hq & _). destruct (Hm3 k p q Hk Hp Hq) as [E|E]; [left|right]; congruence. }
  intros m Hm. right. right. split; [lra|]. split; [reflexivity|]. destruct Hm as [->| ->]; apply HM; auto; try congruence.
  - intros i p q Hi Hp Hq. destruct (HI i Hi) as (p' & q' & Hp' & Hq' & HD). assert (p' = p) by congruence. assert (q' = q) by congruence. subst. destruct HD as [[-> _]|[-> _]]; auto.
  - intros i p q Hi Hp Hq. destruct (HI i Hi) as (p' & q' & Hp' & Hq' & HD). assert (p' = p) by congruence. assert (q' = q) by congruence. subst. destruct HD as [[_ ->]|[_ ->]]; auto.
Qed.

Section Kids.
Variable L : learner.
Variable D : denv L.
Variable d : nat.
Hypothesis HT : table d (dX D) (dy D).
Implicit Types st : nst L.
Notation inv := (L_NoveltyRun.inv L D d). Notation ext := (L_NoveltyRun.ext L).
Lemma alloc_seq {A} (f : A -> St rng (rule L)) l : forall st ids st', mmap (fun a => let* r := on_rng L (f a) in alloc L r) l st = (Ok ids, st') ->
  ids = seq (length (cells st)) (length l) /\ arch st' = arch st /\ exists new, cells st' = cells st ++ new /\ Forall2 (fun a c => exists g g', f a g = (Ok (crule c), g')) l new.
Proof.
  induction l as [|a l IH]; intros st ids st' H; cbn [mmap] in H.
  - injection H as <- <-. split; [reflexivity|]. split; [reflexivity|]. exists []. rewrite app_nil_r. split; [reflexivity|constructor].
  - apply bind_inv in H as (i & s1 & H1 & H). apply bind_inv in H as (is & s2 & H2 & H). injection H as <- <-. apply bind_inv in H1 as (r & s0 & H0 & H1). apply on_rng_inv in H0 as (g' & H0 & ->).
    unfold alloc in H1. injection H1 as <- <-. apply IH in H2 as (-> & A2 & new & C2 & F2). cbn [cells arch] in *. split; [rewrite app_length, Nat.add_1_r; reflexivity|]. split; [exact A2|].
    exists (mkCell r None None None :: new). split; [rewrite C2, <- app_assoc; reflexivity|]. constructor; [cbn; eauto|exact F2].
Qed.
Lemma crossed_pairs (c : nscfg) l : forall st conds st',
  mmap (fun p => let* a := cell_of L (fst p) in let* b := cell_of L (snd p) in on_rng L (crossover (ns_rate c) (d_type (ns_d c)) (cond (crule a)) (cond (crule b)))) l st = (Ok conds, st') ->
  cells st' = cells st /\ arch st' = arch st /\
  Forall2 (fun p cs => exists a b x y, rule_at st (fst p) a /\ rule_at st (snd p) b /\ cs = [x; y] /\
    forall m, m = x \/ m = y -> m = cond a \/ m = cond b \/ (0 < ns_rate c /\ d_type (ns_d c) = OrderedBound /\ recombines m (cond a) (cond b))) l conds.
Proof.
  induction l as [|[i j] l IH]; intros st conds st' H; cbn [mmap] in H.
  - injection H as <- <-. split; [reflexivity|]. split; [reflexivity|constructor].
  - apply bind_inv in H as (x & s2 & H2 & H). apply bind_inv in H as (xs & s3 & H3 & H). injection H as <- <-. cbn [fst snd] in H2.
    apply bind_inv in H2 as (a & s4 & Ha & H2). apply bind_inv in H2 as (b & s5 & Hb & H2). unfold cell_of in Ha, Hb.
    destruct (nth_error (cells st) i) as [ca|] eqn:Ea; [|discriminate]. injection Ha as <- <-. destruct (nth_error (cells st) j) as [cb|] eqn:Eb; [|discriminate]. injection Hb as <- <-.
    apply on_rng_inv in H2 as (g2 & H2 & ->). apply crossover_two in H2 as (x1 & y1 & -> & HM). apply IH in H3 as (C3 & A3 & F3). cbn [cells arch] in *. split; [exact C3|]. split; [exact A3|].
    constructor; [|exact F3]. exists (crule ca), (crule cb), x1, y1. cbn [fst snd]. split; [exists ca; auto|]. split; [exists cb; auto|]. split; [reflexivity|exact HM].
Qed.
Lemma kids_bred (c : nscfg) pop st parents s1 kids s2 : space_dim d (d_constraint (ns_d c)) -> inv st -> Forall (live st) pop ->
  select_parents L c pop st = (Ok parents, s1) -> make_children L c D parents s1 = (Ok kids, s2) -> breeds c (dX D) (dy D) pop st parents kids s2.
Proof.
  intros HS HI HL H1 H2. pose proof (select_parents_ok L D d _ _ _ _ _ H1 HI) as (I1 & E1 & P1).
  assert (HC1 : cells s1 = cells st /\ arch s1 = arch st /\ (length parents <= ns_lambda c)%nat).
  { unfold select_parents in H1. apply bind_inv in H1 as (rs & t1 & H1 & H). apply crules_eq in H1 as [-> HF].
    apply bind_inv in H as (ks & t2 & H3 & H). apply on_rng_inv in H3 as (g2 & H3 & ->). apply on_rng_inv in H as (g3 & H & ->). cbn [gen cells arch] in *. split; [reflexivity|]. split; [reflexivity|].
    apply select_len in H3. pose proof (shuffle_perm (map fst ks) g2) as HPm. destruct (shuffle (map fst ks) g2) as [l g4]. injection H as <- <-. cbn in HPm. rewrite <- (Permutation_length HPm), map_length. exact H3. }
  destruct HC1 as (C1 & A1 & Hlen). unfold make_children in H2. apply bind_inv in H2 as (conds & s1' & HCr & H2). apply crossed_pairs in HCr as (C2 & A2 & HF2).
  apply alloc_seq in H2 as (-> & A3 & new & C3 & HF3).
  assert (H22 : Forall (fun l : list matching => length l = 2%nat) conds).
  { clear - HF2. induction HF2 as [|p cs l conds (a & b & x & y & _ & _ & -> & _) HF IH]; constructor; [reflexivity|exact IH]. }
  destruct (concat_twos conds H22) as [Hl Hn]. assert (Hpl : length conds = Nat.div2 (length parents)) by (rewrite <- pairs_length; symmetry; eapply Forall2_len; exact HF2).
  split; [exact P1|]. split; [exact Hlen|]. rewrite C2, C1, Hl, Hpl. split; [reflexivity|]. split; [|split; [congruence|]].
  { exists new. split; [congruence|]. rewrite seq_length. rewrite <- Hpl, <- Hl. symmetry. eapply Forall2_len. exact HF3. }
  intros k p q Hp Hq. pose proof (pairs_nth parents k p q Hp Hq) as HPk. destruct (forall2_at _ _ _ HF2 _ _ HPk) as (cs & Hcs & a & b & x & y & Ra & Rb & -> & HM). destruct (Hn k x y Hcs) as [Hx Hy]. cbn [fst snd] in *.
  assert (HR : forall i r, rule_at s1 i r -> rule_at s2 i r).
  { intros i r (cc & Hcc & Er). exists cc. split; [|exact Er]. rewrite C3, C2. rewrite nth_error_app1; [exact Hcc|apply nth_error_Some; congruence]. }
  assert (HK : forall j m, nth_error (concat conds) j = Some m -> m = x \/ m = y -> child_of c (dX D) (dy D) s2 p q (length (cells st) + j)).
  { intros j m Hj Hm. destruct (forall2_at _ _ _ HF3 _ _ Hj) as (cc & Hcc & g & g' & HMu). unfold mutant in HMu. apply bind_inv in HMu as (m' & g1 & HM1 & HM2). cbn [cond fresh_rule] in HM1. unfold lift in HM2. injection HM2 as HM2 _.
    assert (HLm : length (bnd m) = d).
    { destruct I1 as [O1 _]. destruct Ra as (ca & Ea & <-). destruct Rb as (cb & Eb & <-).
      pose proof (proj2 (allok_cell L D d _ _ _ (okheap_allok L D d _ O1) Ea)) as La. pose proof (proj2 (allok_cell L D d _ _ _ (okheap_allok L D d _ O1) Eb)) as Lb.
      destruct (HM m Hm) as [->|[->|(_ & _ & _ & [HL1|HL1] & _)]]; congruence. }
    pose proof (mutate_rule_len _ _ _ _ _ HM1) as HLm'.
    assert (HLc : length (bnd (constrain (d_constraint (ns_d c)) m')) = d) by (apply constrain_len; [exact HS|congruence]).
    destruct (fitted_good L D d HT _ _ HLc HM2) as [G1 G2].
    exists a, b, (crule cc), m, m', g, g1. split; [apply HR; exact Ra|]. split; [apply HR; exact Rb|].
    split; [exists cc; split; [|reflexivity]; rewrite C3, C2, C1, nth_error_app2 by lia; replace (length (cells st) + j - length (cells st))%nat with j by lia; exact Hcc|].
    split; [apply HM; exact Hm|]. split; [exact HM1|]. split; [exact G2|apply G1]. }
  split; [apply (HK _ x Hx); auto|]. rewrite <- Nat.add_assoc. apply (HK _ y Hy). auto.
Qed.
End Kids.
