(* Rule discovery: what ES and random search return. *)
From Verif Require Import PyNum PyList PyMon PyRng L_Num L_List L_Rng M_Matching S_Matching L_Matching M_Rule S_Rule L_Rule M_RuleGen L_RuleGen PyStat M_Mixing M_GenomeOps M_Discovery S_Discovery L_Discovery.
From Verif Require Import L_SafeFit L_SasProps L_SwarmProps.
From Coq Require Import Lqa.

Section Props.
Variable L : learner.
Variable D : denv L.
Variable d : nat.
Hypothesis HT : table d (dX D) (dy D).
Notation ok := (good L D d).

Lemma estimate_bounds_len bs : estimate_bounds (dX D) = Ok bs -> length bs = d.
Proof.
  destruct HT as [HX _]. unfold estimate_bounds. destruct (dX D) as [|x X]; [discriminate|]. intros H; injection H as <-.
  inversion HX as [|? ? Hx HX']; subst. rewrite combine_length, col_min_length, col_max_length; auto. lia.
Qed.
Lemma origins_len o n g xs g' : origins o D n g = (Ok xs, g') -> length xs = n /\ Forall (fun x => length x = d) xs.
Proof.
  intros H. destruct HT as [HX _].
  assert (HIn : o <> UniformInput -> length xs = n /\ Forall (fun x => length x = d) xs).
  { intros HO. destruct (origins_in L D o n g xs g' HO H) as [H1 H2]. split; [exact H1|]. revert H2. apply Forall_impl.
    intros x Hx. rewrite Forall_forall in HX. auto. }
  destruct o; try (apply HIn; discriminate). clear HIn. cbn [origins] in H. unfold uniform_input in H.
  apply bind_inv in H as (bs & g1 & H1 & H). unfold lift in H1. injection H1 as H1 _. apply estimate_bounds_len in H1.
  revert g1 xs g' H. induction n as [|n IH]; intros g1 xs g' H; [injection H as <- <-; split; [reflexivity|constructor]|].
  apply bind_inv in H as (x & g2 & Hx & H). apply bind_inv in H as (xs' & g3 & Hxs & H). injection H as <- <-.
  destruct (IH _ _ _ Hxs) as [I1 I2]. split; [cbn; lia|]. constructor; [|exact I2].
  pose proof (draws_length (length bs) g1) as HL. destruct (draws (length bs) g1) as [qs g4]. cbn [fst] in HL.
  injection Hx as <- _. rewrite map2_length; congruence.
Qed.

Section Es.
Variable c : escfg.
Hypothesis HS : space_dim d (d_constraint (es_d c)).

Lemma es_children p g ks g' : ok p -> repeat_m (es_lambda c) (mutant (es_d c) (es_mut c) D p) g = (Ok ks, g') -> length ks = es_lambda c /\ Forall ok ks.
Proof. intros Hp H. apply (repeat_m_all ok) in H; auto. intros g1 a g1' Ha. eapply mutant_good; eauto. Qed.
Lemma first_in {A} (l : list A) x g g' : @lift rng A (first_of l) g = (Ok x, g') -> In x l /\ g' = g.
Proof. unfold lift, first_of. destruct l as [|y l]; cbn; [discriminate|]. intros H; injection H as <- <-. auto. Qed.
Lemma push_in {A} n (w : list A) e x : In x (push n w e) -> In x w \/ x = e.
Proof. unfold push. intros H. apply In_skipn in H. apply in_app_or in H as [H|[<-|[]]]; auto. Qed.
Lemma es_loop_good n : forall e w g r g', ok e -> Forall ok w -> es_loop c D n e w g = (Ok r, g') -> ok r.
Proof.
  induction n as [|n IH]; intros e w g r g' He Hw H; cbn [es_loop] in H; [injection H as <- <-; exact He|].
  set (w' := push (es_delay c) w e) in *. assert (Hw' : Forall ok w').
  { apply Forall_forall. intros x Hx. apply push_in in Hx as [Hx| ->]; [|exact He]. rewrite Forall_forall in Hw. auto. }
  apply bind_inv in H as (ks & g1 & HK & H). destruct (es_children _ _ _ _ He HK) as [_ HKs].
  assert (HV : Forall ok (filter is_valid ks)).
  { apply Forall_forall. intros x Hx. apply filter_In in Hx as [Hx _]. rewrite Forall_forall in HKs. auto. }
  destruct (filter is_valid ks) as [|k0 vs] eqn:EV; [exact (IH _ _ _ _ _ He Hw' H)|].
  apply bind_inv in H as (e' & g2 & HE & H).
  assert (He' : ok e').
  { assert (HP : forall l, Forall ok l -> forall gg, (let* s := pick_rules (es_sel c) l 1 in lift (first_of s)) gg = (Ok e', g2) -> ok e').
    { intros l Hl gg HH. apply bind_inv in HH as (s & g3 & H1 & H2). apply first_in in H2 as [H2 _]. apply pick_in in H1 as [H1 _].
      rewrite Forall_forall in H1, Hl. auto. }
    destruct (es_operator c); [eapply (HP ((k0 :: vs) ++ [e])); eauto; apply Forall_app; split; [exact HV|constructor; auto]
      |eapply HP; eauto|eapply HP; eauto|injection HE as <- <-; exact He]. }
  destruct (es_operator c); try (exact (IH _ _ _ _ _ He' Hw' H)).
  destruct (settled (es_delay c) w'); [|exact (IH _ _ _ _ _ He' Hw' H)]. apply first_in in H as [H _]. rewrite Forall_forall in Hw'. auto.
Qed.
Lemma es_optimize_accepted n kids g out g' : usable (d_accept (es_d c)) -> es_optimize c D n kids g = (Ok out, g') ->
  (length out <= n)%nat /\
  Forall (fun r => fitted_on (dX D) (dy D) r /\ matches_some (dX D) r /\ passes (d_accept (es_d c)) (dy D) r) out.
Proof.
  intros HU H. unfold es_optimize in H. apply bind_inv in H as (xs & g1 & HO & H). destruct (origins_len _ _ _ _ _ HO) as [HL HX].
  apply bind_inv in H as (ini & g2 & HI & H). pose proof (mmap_len _ _ _ _ _ HI) as HLi.
  assert (HG : Forall ok ini).
  { eapply (mmap_all (new_rule (es_d c) D) (fun x => length x = d) ok); eauto. intros x s y s' Hx Hy. eapply new_rule_good; eauto. }
  apply bind_inv in H as (rs & g3 & HR & H). unfold lift in HR, H. injection HR as HR _. injection H as H _.
  apply (rmap_all (es_task c D) (fun t => ok (fst t)) ok) in HR.
  - destruct HR as [HR1 HR2]. split; [|exact (filter_accepted L D d HT _ _ _ HU HR2 H)].
    apply filter_invalid_spec in H as [H _]. rewrite combine_length, map_length, seq_length in HR1. lia.
  - intros [e gg] b He Hb. unfold es_task in Hb. cbn [fst snd] in *. destruct (es_loop c D (es_iter c) e [] gg) as [x g4] eqn:E. cbn [fst] in Hb. subst x.
    eapply es_loop_good; [exact He|constructor|exact E].
  - apply Forall_forall. intros [e gg] Hin. apply in_combine_l in Hin. rewrite Forall_forall in HG. cbn. auto.
Qed.
End Es.
Lemma rs_optimize_accepted (c : rscfg) n g out g' : space_dim d (d_constraint (rs_d c)) -> usable (d_accept (rs_d c)) ->
  rs_optimize c D n g = (Ok out, g') ->
  (length out <= n)%nat /\
  Forall (fun r => fitted_on (dX D) (dy D) r /\ matches_some (dX D) r /\ passes (d_accept (rs_d c)) (dy D) r) out.
Proof.
  intros HS HU H. unfold rs_optimize in H. apply bind_inv in H as (outs & g1 & HO & H). unfold lift in H. injection H as H _.
  apply (repeat_m_all (fun l => Forall ok l /\ (length l <= 1)%nat)) in HO.
  - destruct HO as [HL HF].
    assert (HC : Forall ok (concat outs) /\ (length (concat outs) <= n)%nat).
    { subst n. clear H. induction HF as [|l outs [Hl1 Hl2] HF IH]; cbn [concat length]; [split; [constructor|lia]|].
      destruct IH as [I1 I2]. rewrite app_length. split; [apply Forall_app; auto|lia]. }
    destruct HC as [HC1 HC2]. split; [|exact (filter_accepted L D d HT _ _ _ HU HC1 H)]. apply filter_invalid_spec in H as [H _]. lia.
  - intros g0 l g0' Hl. unfold rs_one in Hl. apply bind_inv in Hl as (xs & g2 & HX & Hl). apply bind_inv in Hl as (rules & g3 & HR & Hl).
    destruct (origins_len _ _ _ _ _ HX) as [_ HXd].
    assert (HG : Forall ok rules).
    { eapply (mmap_all (new_rule (rs_d c) D) (fun x => length x = d) ok); eauto. intros x s y s' Hx Hy. eapply new_rule_good; eauto. }
    apply pick_in in Hl as [H1 H2]. split; [|exact H2]. revert H1. apply Forall_impl. intros r Hr. rewrite Forall_forall in HG. auto.
Qed.

(* ----- C33 ----- *)
Hypothesis HN : forall m e, is_nan (rfitness L m e) = false.
Lemma ok_fit r : ok r -> is_nan (rfit r) = false /\ fitness_is r (rfit r) /\ (~ matches_some (dX D) r -> rfit r = NInf).
Proof.
  intros HG. destruct (good_att L D d r HG) as (t & HA). destruct (good_matched L D d r t HG HA) as [H1 H0].
  assert (HR : rfit r = fitness t) by (unfold rfit, fit_or_nan; rewrite HA; reflexivity).
  split; [|split; [exists t; auto|intros HM; rewrite HR; apply H0; exact HM]].
  rewrite HR. destruct (is_valid r) eqn:EV.
  - apply (is_valid_iff L D d r HG) in EV. destruct (H1 EV) as (_ & (e & _ & ->) & _). apply HN.
  - assert (HM : ~ matches_some (dX D) r) by (intros HM; apply (is_valid_iff L D d r HG) in HM; congruence).
    destruct (H0 HM) as (_ & _ & -> & _). reflexivity.
Qed.
Lemma fit_ge a b : ok a -> ok b -> nle (rfit b) (rfit a) = true -> at_least_as_fit a b.
Proof. intros Ha Hb H. exists (rfit a), (rfit b). split; [apply ok_fit; exact Ha|]. split; [apply ok_fit; exact Hb|exact H]. Qed.
Lemma ge_fit (a b : rule L) : at_least_as_fit a b -> nle (rfit b) (rfit a) = true.
Proof.
  intros (f & h & (t & Ht & <-) & (t' & Ht' & <-) & H). unfold rfit, fit_or_nan. rewrite Ht, Ht'. exact H.
Qed.
Lemma ninf_le a : is_nan a = false -> nle NInf a = true.
Proof. destruct a; intros H; try discriminate; reflexivity. Qed.

Lemma best_one (l : list (rule L)) g : l <> [] -> Forall ok l ->
  exists q, (let* s := pick_rules RFittest l 1 in lift (first_of s)) g = (Ok q, g) /\ In q l /\ Forall (at_least_as_fit q) l.
Proof.
  intros HNe HF.
  assert (HF' : Forall (fun r => is_nan (rfit r) = false) l) by (revert HF; apply Forall_impl; intros r Hr; apply ok_fit; exact Hr).
  destruct (pick_fittest L l 1 g HF') as (out & rest & HP & HPerm & HLen & HS & HB).
  destruct l as [|a l]; [congruence|]. destruct out as [|q [|z out]]; cbn [length Nat.min] in HLen; try lia.
  exists q. rewrite (bind_ok _ _ _ _ _ HP). split; [reflexivity|].
  assert (Hq : In q (a :: l)) by (eapply Permutation_in; [symmetry; exact HPerm|left; reflexivity]).
  split; [exact Hq|]. apply Forall_forall. intros x Hx. rewrite Forall_forall in HF. apply fit_ge; auto.
  apply (Permutation_in _ HPerm) in Hx. destruct Hx as [<-|Hx]; [apply nle_refl; apply ok_fit; auto|]. apply HB; [left; reflexivity|exact Hx].
Qed.
(* children that match nothing are the least fit *)
Lemma best_with_invalid q ks : ok q -> Forall ok ks -> Forall (at_least_as_fit q) (filter is_valid ks) -> Forall (at_least_as_fit q) ks.
Proof.
  intros Hq HK H. apply Forall_forall. intros x Hx. rewrite Forall_forall in HK, H. destruct (is_valid x) eqn:EV.
  - apply H. apply filter_In. auto.
  - apply fit_ge; auto. destruct (ok_fit x (HK _ Hx)) as (_ & _ & HM). rewrite HM; [apply ninf_le; apply ok_fit; exact Hq|].
    intros HM'. apply (is_valid_iff L D d x (HK _ Hx)) in HM'. congruence.
Qed.
Lemma productive_iff (p : rule L) ks : Forall ok ks -> (productive (dX D) (p, ks) <-> filter is_valid ks <> []).
Proof.
  intros HK. rewrite Forall_forall in HK. unfold productive. cbn [snd]. split.
  - intros (k & Hk & HM) E. assert (HIn : In k (filter is_valid ks)) by (apply filter_In; split; [exact Hk|apply (is_valid_iff L D d k); auto]).
    rewrite E in HIn. exact HIn.
  - intros HE. destruct (filter is_valid ks) as [|k vs] eqn:E; [congruence|]. assert (HIn : In k (filter is_valid ks)) by (rewrite E; left; reflexivity).
    apply filter_In in HIn as [H1 H2]. exists k. split; [exact H1|]. apply (is_valid_iff L D d k) in H2; auto.
Qed.

Variable c : escfg.
Hypothesis HS : space_dim d (d_constraint (es_d c)).
Hypothesis HSel : es_sel c = RFittest.

Lemma fit_trans (a b r : rule L) : at_least_as_fit a b -> at_least_as_fit b r -> at_least_as_fit a r.
Proof.
  intros (f & h & H1 & H2 & H3) (f' & h' & H4 & H5 & H6). exists f, h'. split; [exact H1|]. split; [exact H5|].
  destruct H2 as (t & Ht & <-), H4 as (t' & Ht' & <-). assert (t = t') by congruence. subst. eapply nle_trans; eauto.
Qed.
Lemma fit_refl r : ok r -> at_least_as_fit r r.
Proof. intros H. apply fit_ge; auto. apply nle_refl. apply ok_fit. exact H. Qed.

Lemma es_plus n : es_operator c = EsPlus -> forall e w g r g', ok e -> es_loop c D n e w g = (Ok r, g') ->
  exists gens, length gens = n /\ bred c D gens g g' /\ lineage e gens r /\ at_least_as_fit r e /\
    Forall (fun h => Forall (at_least_as_fit r) (fst h :: snd h)) gens.
Proof.
  intros HO. induction n as [|n IH]; intros e w g r g' He H; cbn [es_loop] in H.
  - injection H as <- <-. exists []. split; [reflexivity|]. split; [reflexivity|]. split; [reflexivity|]. split; [apply fit_refl; exact He|constructor].
  - apply bind_inv in H as (ks & g1 & HK & H). destruct (es_children c HS _ _ _ _ He HK) as [HLk HKs].
    assert (HV : Forall ok (filter is_valid ks)).
    { apply Forall_forall. intros x Hx. apply filter_In in Hx as [Hx _]. rewrite Forall_forall in HKs. auto. }
    assert (HC : exists q w', es_loop c D n q w' g1 = (Ok r, g') /\ In q (e :: ks) /\ ok q /\ Forall (at_least_as_fit q) (e :: ks)).
    { destruct (filter is_valid ks) as [|k0 vs] eqn:EV.
      - exists e. eexists. split; [exact H|]. split; [left; reflexivity|]. split; [exact He|]. constructor; [apply fit_refl; exact He|].
        apply best_with_invalid; auto. rewrite EV. constructor.
      - rewrite HO, HSel in H. destruct (best_one ((k0 :: vs) ++ [e]) g1) as (q & HQ & HIn & HB); [discriminate|apply Forall_app; split; auto|].
        rewrite (bind_ok _ _ _ _ _ HQ) in H. exists q. eexists. split; [exact H|].
        assert (Hq : In q (e :: ks)).
        { apply in_app_or in HIn as [Hi|[<-|[]]]; [|left; reflexivity]. right. rewrite <- EV in Hi. apply filter_In in Hi. apply Hi. }
        assert (Hok : ok q) by (destruct Hq as [<-|Hq]; [exact He|rewrite Forall_forall in HKs; auto]).
        apply Forall_app in HB as [HB1 HB2]. split; [exact Hq|]. split; [exact Hok|]. constructor; [inversion HB2; auto|].
        apply best_with_invalid; auto. rewrite EV. exact HB1. }
    destruct HC as (q & w' & HL & Hq & Hok & HB). destruct (IH _ _ _ _ _ Hok HL) as (gens & G1 & G2 & G3 & G4 & G5).
    exists ((e, ks) :: gens). split; [cbn; lia|]. split; [exists g1; auto|]. split; [cbn; split; [reflexivity|exists q; auto]|].
    assert (HB' : Forall (at_least_as_fit r) (e :: ks)) by (revert HB; apply Forall_impl; intros x Hx; eapply fit_trans; eauto).
    split; [inversion HB'; auto|]. constructor; [exact HB'|exact G5].
Qed.

(* ',' and '&' choose among the children *)
Lemma es_choose e g ks g1 : ok e -> repeat_m (es_lambda c) (mutant (es_d c) (es_mut c) D e) g = (Ok ks, g1) ->
  forall k0 vs, filter is_valid ks = k0 :: vs ->
  exists q, (let* s := pick_rules (es_sel c) (k0 :: vs) 1 in lift (first_of s)) g1 = (Ok q, g1) /\ In q ks /\ ok q /\ Forall (at_least_as_fit q) ks /\
    productive (dX D) (e, ks).
Proof.
  intros He HK k0 vs EV. destruct (es_children c HS _ _ _ _ He HK) as [HLk HKs].
  assert (HV : Forall ok (k0 :: vs)).
  { rewrite <- EV. apply Forall_forall. intros x Hx. apply filter_In in Hx as [Hx _]. rewrite Forall_forall in HKs. auto. }
  destruct (best_one (k0 :: vs) g1) as (q & HQ & HIn & HB); [discriminate|exact HV|]. exists q. rewrite HSel. split; [exact HQ|].
  assert (Hq : In q ks) by (rewrite <- EV in HIn; apply filter_In in HIn; apply HIn).
  assert (Hok : ok q) by (rewrite Forall_forall in HKs; auto). split; [exact Hq|]. split; [exact Hok|]. split.
  - apply best_with_invalid; auto. rewrite EV. exact HB.
  - apply productive_iff; auto. rewrite EV. discriminate.
Qed.
Lemma best_of_last_cons (e : rule L) ks q gens r : best_of_last (dX D) q gens r ->
  (productive (dX D) (e, ks) -> In q ks /\ Forall (at_least_as_fit q) ks) -> (~ productive (dX D) (e, ks) -> q = e) -> 
  productive (dX D) (e, ks) \/ ~ productive (dX D) (e, ks) -> best_of_last (dX D) e ((e, ks) :: gens) r.
Proof.
  intros [[H1 ->]|(b & h & a & -> & H)] HP HNP [HD|HD].
  - right. exists [], (e, ks), gens. destruct (HP HD) as [Hi Hb]. cbn [app snd]. auto.
  - left. split; [constructor; auto|auto].
  - right. exists ((e, ks) :: b), h, a. split; [reflexivity|exact H].
  - right. exists ((e, ks) :: b), h, a. split; [reflexivity|exact H].
Qed.
Lemma es_comma n : es_operator c = EsComma -> forall e w g r g', ok e -> es_loop c D n e w g = (Ok r, g') ->
  exists gens, length gens = n /\ bred c D gens g g' /\ lineage e gens r /\ best_of_last (dX D) e gens r.
Proof.
  intros HO. induction n as [|n IH]; intros e w g r g' He H; cbn [es_loop] in H.
  - injection H as <- <-. exists []. repeat (split; [reflexivity|]). left. split; [constructor|reflexivity].
  - apply bind_inv in H as (ks & g1 & HK & H). destruct (es_children c HS _ _ _ _ He HK) as [HLk HKs].
    destruct (filter is_valid ks) as [|k0 vs] eqn:EV.
    + destruct (IH _ _ _ _ _ He H) as (gens & G1 & G2 & G3 & G4). exists ((e, ks) :: gens). split; [cbn; lia|]. split; [exists g1; auto|].
      split; [split; [reflexivity|exists e; split; [left; reflexivity|exact G3]]|].
      assert (HNP : ~ productive (dX D) (e, ks)) by (rewrite productive_iff by auto; congruence).
      apply (best_of_last_cons e ks e); auto. intros HP; contradiction.
    + destruct (es_choose e g ks g1 He HK k0 vs EV) as (q & HQ & Hq & Hok & HB & HPr). rewrite HO in H. rewrite (bind_ok _ _ _ _ _ HQ) in H.
      destruct (IH _ _ _ _ _ Hok H) as (gens & G1 & G2 & G3 & G4). exists ((e, ks) :: gens). split; [cbn; lia|]. split; [exists g1; auto|].
      split; [split; [reflexivity|exists q; split; [right; exact Hq|exact G3]]|].
      apply (best_of_last_cons e ks q); auto. intros HP; contradiction.
Qed.

Lemma skipn_skipn {A} a b (l : list A) : skipn a (skipn b l) = skipn (b + a) l.
Proof. revert l; induction b as [|b IH]; intros l; [reflexivity|]. destruct l; cbn; [destruct a; reflexivity|apply IH]. Qed.
Definition lastk {A} (k : nat) (l : list A) : list A := skipn (length l - k) l.
Lemma lastk_lastk {A} k (a b : list A) : lastk k (lastk k a ++ b) = lastk k (a ++ b).
Proof.
  unfold lastk. rewrite !app_length, skipn_length. rewrite !skipn_app, skipn_length.
  destruct (Nat.le_gt_cases (length a) k) as [H|H].
  - replace (length a - k)%nat with 0%nat by lia. cbn [skipn]. replace (length a - 0 + length b - k)%nat with (length a + length b - k)%nat by lia. f_equal. f_equal. lia.
  - destruct (Nat.le_gt_cases (length b) k) as [Hb|Hb].
    + rewrite skipn_skipn. f_equal; [f_equal; lia|f_equal; lia].
    + rewrite (skipn_all2 (skipn _ a)) by (rewrite skipn_length; lia). rewrite (skipn_all2 a) by lia. cbn [app]. f_equal. lia.
Qed.
Lemma es_and n : es_operator c = EsAnd -> forall e w g r g', ok e -> Forall ok w -> es_loop c D n e w g = (Ok r, g') ->
  exists gens, (length gens <= n)%nat /\ bred c D gens g g' /\
    ((length gens = n /\ lineage e gens r /\ best_of_last (dX D) e gens r) \/
     (let win := lastk (es_delay c) (w ++ map fst gens) in
      length win = es_delay c /\ nth_error win 0 = Some r /\ Forall (at_least_as_fit r) win /\ gens <> [] /\
      exists q, lineage e gens q)).
Proof.
  intros HO. induction n as [|n IH]; intros e w g r g' He Hw H; cbn [es_loop] in H.
  - injection H as <- <-. exists []. split; [cbn; lia|]. split; [reflexivity|]. left. repeat (split; [reflexivity|]). left. split; [constructor|reflexivity].
  - set (w' := push (es_delay c) w e) in *. assert (Hw' : Forall ok w').
    { apply Forall_forall. intros x Hx. apply push_in in Hx as [Hx| ->]; [|exact He]. rewrite Forall_forall in Hw. auto. }
    assert (EW : forall l, lastk (es_delay c) (w' ++ l) = lastk (es_delay c) (w ++ e :: l)).
    { intros l. unfold w', push. fold (lastk (es_delay c) (w ++ [e])). rewrite lastk_lastk, <- app_assoc. reflexivity. }
    apply bind_inv in H as (ks & g1 & HK & H). destruct (es_children c HS _ _ _ _ He HK) as [HLk HKs].
    destruct (filter is_valid ks) as [|k0 vs] eqn:EV.
    + destruct (IH _ _ _ _ _ He Hw' H) as (gens & G1 & G2 & G3). exists ((e, ks) :: gens). split; [cbn; lia|]. split; [exists g1; auto|].
      assert (HNP : ~ productive (dX D) (e, ks)) by (rewrite productive_iff by auto; congruence).
      destruct G3 as [(E1 & E2 & E3)|(E1 & E2 & E3 & E4 & q & E5)].
      * left. split; [cbn; lia|]. split; [split; [reflexivity|exists e; split; [left; reflexivity|exact E2]]|].
        apply (best_of_last_cons e ks e); auto. intros HP; contradiction.
      * right. rewrite EW in E1, E2, E3. cbn [map fst]. repeat (split; [assumption|]). split; [discriminate|]. exists q. split; [reflexivity|exists e; split; [left; reflexivity|exact E5]].
    + destruct (es_choose e g ks g1 He HK k0 vs EV) as (q & HQ & Hq & Hok & HB & HPr). rewrite HO in H. rewrite (bind_ok _ _ _ _ _ HQ) in H.
      destruct (settled (es_delay c) w') eqn:EST.
      * unfold lift in H. injection H as H <-. exists [(e, ks)]. split; [cbn; lia|]. split; [exists g1; split; [exact HK|reflexivity]|]. right.
        cbn [map fst]. rewrite <- (EW []), app_nil_r. unfold settled in EST. apply andb_true_iff in EST as [E1 E2]. apply Nat.eqb_eq in E1.
        assert (EL : lastk (es_delay c) w' = w'). { unfold lastk. rewrite E1, Nat.sub_diag. reflexivity. }
        rewrite EL. split; [exact E1|]. destruct w' as [|e0 w1]; [discriminate|]. cbn in H. injection H as <-. split; [reflexivity|]. split; [|split; [discriminate|exists q; split; [reflexivity|exists q; split; [right; exact Hq|reflexivity]]]].
        rewrite forallb_forall in E2. apply Forall_forall. intros x Hx. rewrite Forall_forall in Hw'. apply fit_ge; auto. apply Hw'. left; reflexivity.
      * destruct (IH _ _ _ _ _ Hok Hw' H) as (gens & G1 & G2 & G3). exists ((e, ks) :: gens). split; [cbn; lia|]. split; [exists g1; auto|].
        destruct G3 as [(E1 & E2 & E3)|(E1 & E2 & E3 & E4 & q' & E5)].
        -- left. split; [cbn; lia|]. split; [split; [reflexivity|exists q; split; [right; exact Hq|exact E2]]|].
           apply (best_of_last_cons e ks q); auto. intros HP; contradiction.
        -- right. rewrite EW in E1, E2, E3. cbn [map fst]. repeat (split; [assumption|]). split; [discriminate|]. exists q'. split; [reflexivity|exists q; split; [right; exact Hq|exact E5]].
Qed.
End Props.
