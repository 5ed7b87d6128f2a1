(* The course of novelty search. *)
From Coq Require Import Permutation Sorting.Sorted Lia.
From Verif Require Import PyNum PyList PyMon PyRng L_Num L_List L_Rng M_Matching S_Matching M_Rule S_Rule M_RuleGen L_RuleGen M_Mixing M_GenomeOps M_Discovery S_Discovery L_Discovery L_DiscoveryProps L_SasProps L_SafeFit
  M_Novelty S_Novelty L_Novelty L_NoveltyNum L_NoveltyScore L_NoveltyProps L_NoveltyRun L_NoveltyEx S_Breed L_Breed L_Breed2.
From Coq Require Import Lqa.

Section Course.
Variable L : learner.
Variable D : denv L.
Variable d : nat.
Hypothesis HT : table d (dX D) (dy D).
Hypothesis HX : dX D <> [].
Hypothesis HP : forall m e, exists q, rfitness L m e = Fin q.
Implicit Types st : nst L.
Notation inv := (L_NoveltyRun.inv L D d). Notation ext := (L_NoveltyRun.ext L).
Notation has := (L_Novelty.has L).
Notation MX := (dX D). Notation My := (dy D).
Lemma ext_rules a b : ext a b -> same_rules a b.
Proof. intros H i r (c & Hc & E). destruct (H i c Hc) as (c' & Hc' & E' & _). exists c'. split; [exact Hc'|congruence]. Qed.
Lemma rules_trans (a b c : nst L) : same_rules a b -> same_rules b c -> same_rules a c. Proof. intros H1 H2 i r H. apply H2, H1, H. Qed.
Lemma rule_once st i r r' : rule_at st i r -> rule_at st i r' -> r = r'.
Proof. intros (c & Hc & <-) (c' & Hc' & <-). congruence. Qed.
Lemma valid_exact ids st out st' : inv st -> NoDup ids -> valid_children L ids st = (Ok out, st') -> st' = st /\ NoDup out /\ forall i, In i out <-> In i ids /\ matches_at MX st i.
Proof.
  intros [HO _] HN H. unfold valid_children in H. apply bind_inv in H as (rs & s1 & H1 & H). apply crules_eq in H1 as [-> HF]. injection H as <- <-. split; [reflexivity|].
  assert (HG : forall i c, nth_error (cells st) i = Some c -> (is_valid (crule c) = true <-> matches_some MX (crule c))).
  { intros i c Hc. apply (is_valid_iff L D d). exact (allok_cell L D d _ _ _ (okheap_allok L D d _ HO) Hc). }
  induction HF as [|i p ids rs (E & c & Hc & Ec) HF IH]; cbn; [split; [constructor|intros i; split; [intros []|intros [[] _]]]|].
  inversion HN as [|? ? N1 N2]; subst i. specialize (IH N2). destruct IH as [I1 I2]. pose proof (HG _ _ Hc) as HV. rewrite Ec in HV.
  assert (HMi : matches_at MX st (fst p) <-> is_valid (snd p) = true).
  { split; [intros (r & Hr & Hm); apply HV; assert (r = snd p) by (eapply rule_once; [exact Hr|exists c; auto]); subst; exact Hm|]. intros Hv. exists (snd p). split; [exists c; auto|apply HV; exact Hv]. }
  destruct (is_valid (snd p)) eqn:EV; cbn.
  - split; [constructor; [intros HI; apply I2 in HI; apply N1, HI|exact I1]|]. intros j. rewrite I2. split; [intros [<-|[A B]]; [split; [left; reflexivity|apply HMi; reflexivity]|auto]|]. intros [[<-|A] B]; auto.
  - split; [exact I1|]. intros j. rewrite I2. split; [intros [A B]; auto|]. intros [[<-|A] B]; [|auto]. apply HMi in B. discriminate.
Qed.
Lemma generation_step (c : nscfg) n pop best st out st' : space_dim d (d_constraint (ns_d c)) -> type_ok (ns_type c) -> inv st -> Forall (live st) pop ->
  ns_loop c D (S n) pop best st = (Ok out, st') -> exists pop1 best1 st1, generation c MX My pop best st pop1 best1 st1 /\ inv st1 /\ Forall (live st1) pop1 /\ ext st st1 /\ ns_loop c D n pop1 best1 st1 = (Ok out, st').
Proof.
  intros HS Ht HI HL H. cbn [ns_loop] in H. apply bind_inv in H as (ps & s1 & H1 & H). pose proof (select_parents_ok L D d _ _ _ _ _ H1 HI) as (I1 & E1 & P1).
  assert (L1 : Forall (live s1) pop) by (revert HL; apply Forall_impl; intros i; apply ext_live; exact E1).
  destruct ps as [|p ps].
  { exists pop, best, s1. split; [|auto]. exists [], [], s1. split; [apply (kids_bred L D d HT c pop st [] s1 [] s1 HS HI HL H1); reflexivity|]. left. split; [intros i []|auto]. }
  set (pps := p :: ps) in *. apply bind_inv in H as (ch & s2 & H2 & H).
  pose proof (kids_bred L D d HT c pop st pps s1 ch s2 HS HI HL H1 H2) as HB.
  assert (LP : Forall (live s1) pps) by (apply Forall_forall; intros i Hi; rewrite Forall_forall in L1; apply L1, P1; exact Hi).
  apply (make_children_ok L D d HT) in H2 as (I2 & E2 & L2); [|exact HS|exact I1|exact LP].
  assert (HN : NoDup ch) by (destruct HB as (_ & _ & -> & _); apply seq_NoDup).
  apply bind_inv in H as (va & s3 & H3 & H). apply valid_exact in H3 as (-> & V1 & V2); [|exact I2|exact HN].
  assert (E12 : ext st s2) by (eapply ext_trans; eauto).
  assert (L12 : Forall (live s2) pop) by (revert HL; apply Forall_impl; intros i; apply ext_live; exact E12).
  destruct va as [|v va].
  { exists pop, best, s2. split; [|auto]. exists pps, ch, s2. split; [exact HB|]. left. split; [intros i Hi Hm; apply (proj2 (V2 i)); auto|auto]. }
  set (vva := v :: va) in *. apply bind_inv in H as (bc & s4 & H4 & H). apply bind_inv in H as (bp & s5 & H5 & H).
  assert (LV : Forall (live s2) vva) by (apply Forall_forall; intros i Hi; rewrite Forall_forall in L2; apply L2, V2; exact Hi).
  destruct (selection_full L D d HT HX HP c vva (ns_mu c) (ns_roh c) s2 I2 LV ltac:(discriminate) Ht) as (o & new & s4' & E4 & I4 & X4 & C4 & A4 & M4 & F4).
  rewrite E4 in H4. injection H4 as <- <-.
  assert (LP4 : Forall (live s4') pps) by (revert LP; apply Forall_impl; intros i Hi; eapply ext_live; [exact X4|]; eapply ext_live; [exact E2|exact Hi]).
  destruct (selection_full L D d HT HX HP c pps (ns_elitists c) 0 s4' I4 LP4 ltac:(discriminate) Ht) as (o5 & new5 & s5' & E5 & I5 & X5 & C5 & A5 & M5 & F5).
  rewrite E5 in H5. injection H5 as <- <-.
  exists (o ++ o5), o, s5'. split.
  - exists pps, ch, s2. split; [exact HB|]. right. exists vva, o5, new, new5, s4'. split; [discriminate|]. split; [exact V1|]. split; [exact V2|]. split; [exact M4|].
    assert (HAr : arch s2 = arch st) by apply HB. split; [congruence|]. split; [apply ext_rules; exact X4|]. split; [exact M5|]. split; [exact A5|]. split; [apply ext_rules; exact X5|]. split; [congruence|reflexivity].
  - split; [exact I5|]. split; [|split; [|exact H]].
    + apply Forall_app. split; [|revert F5; apply Forall_impl; intros i; apply has_live]. revert F4. apply Forall_impl. intros i Hi. eapply ext_live; [exact X5|]. apply has_live. exact Hi.
    + eapply ext_trans; [exact E12|]. eapply ext_trans; eauto.
Qed.
Lemma child_ext c (a b : nst L) p q i : same_rules a b -> child_of c MX My a p q i -> child_of c MX My b p q i.
Proof. intros HR (x & y & r & m & m' & g & g' & A & B & C & H). exists x, y, r, m, m', g, g'. split; [apply HR; exact A|]. split; [apply HR; exact B|]. split; [apply HR; exact C|exact H]. Qed.
Lemma matches_ext (a b : nst L) i : same_rules a b -> matches_at MX a i -> matches_at MX b i.
Proof. intros HR (r & A & B). exists r. split; [apply HR; exact A|exact B]. Qed.
Lemma descends_ext c n (a b : nst L) i : same_rules a b -> descends c MX My n a i -> descends c MX My n b i.
Proof. intros HR (H1 & H2 & p & q & H3 & H4 & H5). split; [exact H1|]. split; [eapply matches_ext; eauto|]. exists p, q. split; [exact H3|]. split; [exact H4|]. eapply child_ext; eauto. Qed.
Lemma kid_descends c MX My pop st parents kids s1 i : Forall (live st) pop -> breeds c MX My pop st parents kids s1 -> In i kids -> matches_at MX s1 i -> descends c MX My (length (cells st)) s1 i.
Proof.
  intros HL (P1 & _ & -> & _ & _ & HC) Hi Hm. apply in_seq in Hi. split; [lia|]. split; [exact Hm|]. set (j := (i - length (cells st))%nat). set (k := Nat.div2 j).
  assert (Hk : j = (2 * k)%nat \/ j = (2 * k + 1)%nat) by (unfold k; destruct (Nat.Even_or_Odd j) as [HE|HO]; [left; apply Nat.Even_double in HE|right; apply Nat.Odd_double in HO]; unfold Nat.double in *; lia).
  assert (Hk2 : (2 * k + 1 < length parents)%nat).
  { assert (Hd : (2 * Nat.div2 (length parents) <= length parents)%nat) by (pose proof (Nat.div2_odd (length parents)); destruct (Nat.odd (length parents)); cbn [Nat.b2n] in *; lia). unfold j in *. lia. }
  destruct (nth_error parents (2 * k)) as [p|] eqn:Ep; [|apply nth_error_None in Ep; lia]. destruct (nth_error parents (2 * k + 1)) as [q|] eqn:Eq; [|apply nth_error_None in Eq; lia].
  rewrite Forall_forall in HL. assert (Hp : live st p) by (apply HL, P1; eapply nth_error_In; eauto). assert (Hq : live st q) by (apply HL, P1; eapply nth_error_In; eauto). unfold live in *.
  exists p, q. split; [lia|]. split; [lia|]. destruct (HC k p q Ep Eq) as [C1 C2]. destruct Hk as [Hk|Hk].
  - replace i with (length (cells st) + 2 * k)%nat by (unfold j in *; lia). exact C1.
  - replace i with (length (cells st) + 2 * k + 1)%nat by (unfold j in *; lia). exact C2.
Qed.
Lemma nodup_part {A} (l a b : list A) : Permutation l (a ++ b) -> NoDup l -> NoDup a.
Proof. intros HPm HN. apply (Permutation_NoDup HPm) in HN. eapply nodup_left; eauto. Qed.
Lemma course (c : nscfg) : space_dim d (d_constraint (ns_d c)) -> type_ok (ns_type c) -> forall n pop best st out st', inv st -> Forall (live st) pop ->
  ns_loop c D n pop best st = (Ok out, st') -> same_rules st st' /\ (length (cells st) <= length (cells st') <= length (cells st) + n * ns_lambda c)%nat /\
  (exists new, arch st' = arch st ++ new /\
    (ns_use_pop c = false -> Forall (descends c MX My (length (cells st)) st') new /\ (length new <= n * match ns_archive c with ANone => 0 | _ => ns_roh c end)%nat)) /\
  forall base, (base <= length (cells st))%nat -> NoDup best -> (length best <= ns_mu c)%nat -> Forall (descends c MX My base st) best -> NoDup out /\ (length out <= ns_mu c)%nat /\ Forall (descends c MX My base st') out.
Proof.
  intros HS Ht. induction n as [|n IH]; intros pop best st out st' HI HL H.
  - cbn in H. injection H as <- <-. split; [intros i r Hr; exact Hr|]. split; [lia|]. split; [|auto]. exists []. split; [symmetry; apply app_nil_r|]. intros _. split; [constructor|cbn; lia].
  - apply generation_step in H as (pop1 & best1 & st1 & HG & I1 & L1 & E1 & H); [|assumption..]. destruct (IH _ _ _ _ _ I1 L1 H) as (R2 & C2 & (new2 & A2 & U2) & B2). clear IH.
    apply ext_rules in E1. destruct HG as (ps & kids & s1 & HB & HC).
    assert (HLs : (length (cells st) <= length (cells s1) <= length (cells st) + ns_lambda c)%nat).
    { destruct HB as (_ & Hl & -> & (nw & -> & Hn) & _). rewrite app_length, Hn, seq_length. assert (Hd : (2 * Nat.div2 (length ps) <= length ps)%nat) by (pose proof (Nat.div2_odd (length ps)); destruct (Nat.odd (length ps)); cbn [Nat.b2n] in *; lia). lia. }
    split; [eapply rules_trans; eauto|]. destruct HC as [(HNo & -> & -> & ->)|(va & el & new & newp & s2 & NV & DV & IV & M1 & A1 & R1 & M3 & A3 & R3 & C3 & ->)].
    + split; [lia|]. split.
      * exists new2. split; [rewrite A2; f_equal; apply HB|]. intros HU. destruct (U2 HU) as [U3 U4]. split; [|lia]. revert U3. apply Forall_impl. intros i (X1 & X2). split; [lia|exact X2].
      * intros base Hb N1 N2 N3. apply B2; [lia|exact N1|exact N2|]. revert N3. apply Forall_impl. intros i. apply descends_ext. exact E1.
    + destruct M1 as (kept & rest & K1 & K2 & K3 & K4 & K5 & K6 & K7 & K8 & _). destruct M3 as (kept3 & rest3 & _ & _ & _ & _ & _ & _ & _ & K83 & _).
      assert (HRs : same_rules s1 st') by (eapply rules_trans; [exact R1|]; eapply rules_trans; eauto).
      assert (HDk : forall i, In i kept -> descends c MX My (length (cells st)) s1 i) by (intros i Hi; apply K1, IV in Hi as [Hi1 Hi2]; eapply kid_descends; eauto).
      split; [lia|]. split.
      * exists (new ++ newp ++ new2). split; [rewrite A2, A3, A1, <- !app_assoc; reflexivity|]. intros HU. destruct (U2 HU) as [U3 U4]. destruct (K8 HU) as [K9 _]. destruct (K83 HU) as [K10 _].
        assert (Hz : newp = []) by (destruct newp; [reflexivity|]; destruct (ns_archive c); cbn in K10; discriminate). subst newp. cbn [app]. split.
        -- apply Forall_app. split; [apply Forall_forall; intros i Hi; eapply descends_ext; [exact HRs|]; apply HDk, K6, Hi|]. revert U3. apply Forall_impl. intros i (X1 & X2). split; [lia|exact X2].
        -- rewrite app_length, K9. destruct (ns_archive c); lia.
      * intros base Hb N1 N2 N3. apply B2; [lia|eapply nodup_part; [exact K4|]; apply K3; exact DV|lia|].
        apply Forall_forall. intros i Hi. assert (Hk : In i kept) by (apply (Permutation_in _ (Permutation_sym K4)), in_or_app; left; exact Hi).
        assert (HD : descends c MX My (length (cells st)) st1 i) by (eapply descends_ext; [eapply rules_trans; [exact R1|exact R3]|]; apply HDk; exact Hk). destruct HD as (X1 & X2). split; [lia|exact X2].
Qed.
End Course.
