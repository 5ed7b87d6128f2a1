(* One generation of novelty search. *)
From Coq Require Import Permutation Sorting.Sorted Lia.
From Verif Require Import PyNum PyList PyMon PyRng L_Num L_List L_Rng M_Matching S_Matching M_Rule S_Rule M_RuleGen L_RuleGen M_Mixing M_GenomeOps M_Discovery S_Discovery L_Discovery L_DiscoveryProps L_SasProps
  M_Novelty S_Novelty L_Novelty L_NoveltyNum L_NoveltyScore L_NoveltyProps L_NoveltyRun L_NoveltyEx S_Breed.
From Coq Require Import Lqa.

Lemma combine_filter_nodup {A B} (f : A * B -> bool) (l : list A) : forall l', NoDup l -> NoDup (map fst (filter f (combine l l'))).
Proof.
  induction l as [|a l IH]; intros [|b l'] H; cbn; try constructor. inversion H as [|? ? H1 H2]; subst. destruct (f (a, b)); cbn; [|auto]. constructor; [|auto].
  intros HI. apply H1. apply in_map_iff in HI as ([x y] & E & HI). cbn in E. subst x. apply filter_In in HI as [HI _]. apply in_combine_l in HI. exact HI.
Qed.
Lemma front_nodup l : forall last, NoDup (map fst l) -> NoDup (map fst (front last l)) /\ incl (map fst (front last l)) (map fst l).
Proof.
  induction l as [|p l IH]; intros last H; cbn; [split; [constructor|apply incl_refl]|]. inversion H as [|? ? H1 H2]; subst. destruct (nle last (snd (snd p))); cbn.
  - destruct (IH (snd (snd p)) H2) as [A B]. split; [constructor; [intros HI; apply H1, B, HI|exact A]|]. intros i [<-|Hi]; [left; reflexivity|right; apply B; exact Hi].
  - destruct (IH last H2) as [A B]. split; [exact A|]. intros i Hi. right. apply B. exact Hi.
Qed.
Lemma nodup_left {A} (a b : list A) : NoDup (a ++ b) -> NoDup a.
Proof. induction a as [|x a IH]; cbn; intros H; constructor; inversion H as [|? ? H1 H2]; subst; [intros HI; apply H1, in_or_app; left; exact HI|auto]. Qed.
Section Keep.
Variable L : learner.
Implicit Types st : nst L.
Lemma with_key_fst {B} (key : nat -> St (nst L) B) rs : forall st ks st', with_key L key rs st = (Ok ks, st') -> map fst ks = rs.
Proof.
  unfold with_key. induction rs as [|i rs IH]; intros st ks st' H; cbn [mmap] in H; [injection H as <- <-; reflexivity|].
  apply bind_inv in H as (p & s1 & H1 & H). apply bind_inv in H as (ps & s2 & H2 & H). injection H as <- <-. apply bind_inv in H1 as (k & s3 & _ & H1). injection H1 as <- <-. cbn. f_equal. eapply IH; eauto.
Qed.
Lemma filter_nodup t rs st out st' : filter_rules t rs st = (Ok out, st') -> NoDup rs -> NoDup out.
Proof.
  intros H HN. destruct t; cbn [filter_rules] in H; try (injection H as <- <-; exact HN).
  apply bind_inv in H as (cs & s1 & H1 & H). apply bind_inv in H as (p & s2 & H2 & H). injection H as <- <-. apply combine_filter_nodup. exact HN.
Qed.
Lemma score_nodup b t k rs st out st' : novelty_score b t k rs st = (Ok out, st') -> NoDup rs -> NoDup out.
Proof.
  intros H HN. unfold novelty_score in H. apply bind_inv in H as (a & s1 & H1 & H). apply bind_inv in H as (fl & s2 & H2 & H). apply bind_inv in H as (lo & s3 & H3 & H). apply bind_inv in H as ([] & s4 & H4 & H).
  injection H as <- <-. eapply filter_nodup; eauto.
Qed.
Lemma novelty_nodup b t k rs st out st' : novelty b t k rs st = (Ok out, st') -> NoDup rs -> NoDup out.
Proof.
  intros H HN. destruct b; cbn [novelty] in H; try (eapply score_nodup; eassumption).
  - apply bind_inv in H as (fs & s1 & H1 & H). eapply score_nodup; [exact H|]. apply combine_filter_nodup. exact HN.
  - apply bind_inv in H as (o & s1 & H1 & H). apply score_nodup in H1; [|exact HN]. unfold pareto_front in H. apply bind_inv in H as (ks & s2 & H2 & H). apply with_key_fst in H2.
    assert (HM : NoDup (map fst (by_key (lex_lt nlt) ks))) by (eapply Permutation_NoDup; [|rewrite <- H2 in H1; exact H1]; apply Permutation_map, Permutation_sym, by_key_perm).
    destruct (by_key (lex_lt nlt) ks) as [|p l]; [discriminate|]. injection H as <- <-. cbn in *. inversion HM as [|? ? M1 M2]; subst. destruct (front_nodup l (snd (snd p)) M2) as [A B]. constructor; [intros HI; apply M1, B, HI|exact A].
Qed.
End Keep.

Section Sel.
Variable L : learner.
Variable D : denv L.
Variable d : nat.
Hypothesis HT : table d (dX D) (dy D).
Hypothesis HX : dX D <> [].
Hypothesis HP : forall m e, exists q, rfitness L m e = Fin q.
Implicit Types st : nst L.
Notation inv := (L_NoveltyRun.inv L D d). Notation ext := (L_NoveltyRun.ext L).
Notation has := (L_Novelty.has L). Notation vld := (L_NoveltyRun.vld L). Notation scof := (L_NoveltyScore.scof L).
Lemma ranked_cells st st' a b : cells st = cells st' -> ranked L st a b -> ranked L st' a b.
Proof. intros E. unfold ranked, vkey, sval, L_NoveltyScore.scof, expof. rewrite E. auto. Qed.
Lemma ranked_preferred st a b : inv st -> has st a -> has st b -> scof st a <> None -> scof st b <> None -> ranked L st a b -> preferred st a b.
Proof.
  intros I Ha Hb Sa Sb HR. destruct (scof st a) as [s|] eqn:Ea; [|congruence]. destruct (scof st b) as [s'|] eqn:Eb; [|congruence].
  exists s, (expof L st a), s', (expof L st b). split; [apply novelty_is_iff; exact Ea|]. split; [apply (expof_at L (dX D) (dy D) d); [exact (okheap_allok L D d st (proj1 I))|apply has_live; exact Ha]|].
  split; [apply novelty_is_iff; exact Eb|]. split; [apply (expof_at L (dX D) (dy D) d); [exact (okheap_allok L D d st (proj1 I))|apply has_live; exact Hb]|].
  unfold ranked, lex_ge, vkey in HR. cbn [fst snd] in HR. unfold sval in HR. rewrite Ea, Eb in HR. rewrite neqb_sym. exact HR.
Qed.
Lemma archive_full a rs n st : inv st -> Forall (fun i => has st i /\ scof st i <> None) rs ->
  exists rs' st' new, archive_rules a rs n st = (Ok rs', st') /\ Permutation rs rs' /\ cells st' = cells st /\ arch st' = arch st ++ new /\ incl new rs /\
    length new = match a with ANone => 0%nat | _ => Nat.min n (length rs) end /\ (NoDup rs -> NoDup new) /\
    (a = ANovel -> Forall (fun i => is_nan (sval L st i) = false) rs -> forall x y, In x new -> In y rs -> ~ In y new -> ranked L st x y).
Proof.
  intros [HO HA] HF. pose proof (okheap_allok L D d st HO) as HAl. destruct a; cbn [archive_rules].
  - destruct (n_best_total L D d st rs n HAl) as (out & rest & E & Hl & HPm & HS); [revert HF; apply Forall_impl; intros i [H1 H2]; split; [apply has_live; exact H1|exact H2]|].
    unfold bind. rewrite E, extend_eq. exists rs, (mkNst (cells st) (arch st ++ out) (gen st)), out. split; [reflexivity|]. split; [reflexivity|]. split; [reflexivity|]. split; [reflexivity|].
    split; [intros i Hi; apply (Permutation_in _ (Permutation_sym HPm)); apply in_or_app; left; exact Hi|]. split; [exact Hl|].
    split; [intros HN; apply (Permutation_NoDup HPm) in HN; apply nodup_left in HN; exact HN|]. intros _ HNan x y Hx Hy HNy. destruct (HS HNan) as [_ HS2]. apply HS2; [exact Hx|].
    apply (Permutation_in _ HPm) in Hy. apply in_app_or in Hy as [Hy|Hy]; [contradiction|exact Hy].
  - unfold bind, on_rng. pose proof (shuffle_perm rs (gen st)) as HPm. destruct (shuffle rs (gen st)) as [l g']. cbn in HPm. cbn [extend_archive cells arch gen].
    exists l, (mkNst (cells st) (arch st ++ firstn n l) g'), (firstn n l). split; [reflexivity|]. split; [exact HPm|]. split; [reflexivity|]. split; [reflexivity|].
    split; [intros i Hi; apply (Permutation_in _ (Permutation_sym HPm)); eapply In_firstn; eauto|]. split; [rewrite firstn_length, (Permutation_length HPm); reflexivity|].
    split; [|discriminate]. intros HN. apply (Permutation_NoDup HPm) in HN. rewrite <- (firstn_skipn n l) in HN. apply nodup_left in HN. exact HN.
  - exists rs, st, []. split; [reflexivity|]. split; [reflexivity|]. split; [reflexivity|]. split; [symmetry; apply app_nil_r|]. split; [intros i []|]. split; [reflexivity|]. split; [constructor|discriminate].
Qed.
Lemma selection_full (c : nscfg) rs n roh st : inv st -> Forall (live st) rs -> rs <> [] -> type_ok (ns_type c) ->
  exists out new st', rule_selection c rs n roh st = (Ok out, st') /\ inv st' /\ ext st st' /\ length (cells st') = length (cells st) /\ arch st' = arch st ++ new /\
    most_novel c rs n roh out new st' /\ Forall (has st') out.
Proof.
  intros HI HL HR Ht. destruct HI as [HO HA].
  destruct (novelty_total L D d HT HX HP (ns_calc c) (ns_type c) (ns_k c) rs st HO HA HL HR Ht) as (mid & fl & st1 & E1 & N1 & I1 & I2 & G1 & O1 & A1 & F1 & S1 & _).
  assert (HF : Forall (fun i => has st1 i /\ scof st1 i <> None) mid).
  { apply Forall_forall. intros i Hi. apply I1 in Hi. rewrite Forall_forall in F1. split; [apply F1; exact Hi|]. destruct (S1 i Hi) as (s & -> & _). discriminate. }
  assert (HNaN : (forall nb fb, ns_calc c <> NBiased nb fb) -> Forall (fun i => is_nan (sval L st1 i) = false) mid).
  { intros HB. apply Forall_forall. intros i Hi. apply I1 in Hi. destruct (S1 i Hi) as (s & Hs & Ho). unfold sval. rewrite Hs. unfold okscore in Ho.
    destruct (ns_calc c); [| | |exfalso; eapply HB; reflexivity]; destruct Ho as (q & -> & _); reflexivity. }
  pose proof (novelty_nodup L _ _ _ _ _ _ _ E1) as HND.
  assert (HM : exists mid' st2 new, (if ns_use_pop c then extend_archive L mid ;; ret mid else archive_rules (ns_archive c) mid roh) st1 = (Ok mid', st2) /\ Permutation mid mid' /\ cells st2 = cells st1 /\ arch st2 = arch st1 ++ new /\ incl new mid /\
    (ns_use_pop c = true -> new = mid) /\ (ns_use_pop c = false -> length new = match ns_archive c with ANone => 0%nat | _ => Nat.min roh (length mid) end /\ (NoDup mid -> NoDup new)) /\
    (ns_use_pop c = false -> ns_archive c = ANovel -> Forall (fun i => is_nan (sval L st1 i) = false) mid -> forall x y, In x new -> In y mid -> ~ In y new -> ranked L st1 x y)).
  { destruct (ns_use_pop c).
    - exists mid, (mkNst (cells st1) (arch st1 ++ mid) (gen st1)), mid. split; [reflexivity|]. split; [reflexivity|]. split; [reflexivity|]. split; [reflexivity|]. split; [apply incl_refl|]. split; [reflexivity|]. split; discriminate.
    - destruct (archive_full (ns_archive c) mid roh st1 (conj O1 A1) HF) as (rs' & st' & new & B1 & B2 & B3 & B4 & B5 & B6 & B7 & B8). exists rs', st', new. repeat (split; [assumption|]). split; [discriminate|]. split; auto. }
  destruct HM as (mid' & st2 & new & E2 & P2 & C2 & A2 & N2 & U1 & U2 & U3).
  assert (Hhas : forall i, has st1 i -> has st2 i) by (intros i (x & ds & Hx & Hd); exists x, ds; rewrite C2; auto).
  assert (Hsc : forall i, scof st2 i = scof st1 i) by (intros i; unfold L_NoveltyScore.scof; rewrite C2; reflexivity).
  assert (HO2 : okheap L D d st2) by (unfold L_Novelty.okheap; rewrite C2; exact O1).
  assert (HF2 : Forall (fun i => has st2 i /\ scof st2 i <> None) mid').
  { eapply Permutation_Forall; [exact P2|]. revert HF. apply Forall_impl. intros i [H1 H2]. split; [auto|rewrite Hsc; exact H2]. }
  destruct (n_best_total L D d st2 mid' n (okheap_allok L D d st2 HO2)) as (out & rest & E3 & Hl & HPm & HS); [revert HF2; apply Forall_impl; intros i [H1 H2]; split; [apply has_live; exact H1|exact H2]|].
  exists out, new, st2. split; [unfold rule_selection, bind at 1; rewrite E1; unfold bind at 1; rewrite E2; exact E3|].
  destruct G1 as (GA & GG & GL & GE).
  assert (HI2 : inv st2).
  { split; [exact HO2|]. rewrite A2. apply Forall_app. split; [revert A1; apply Forall_impl; auto|]. apply Forall_forall. intros i Hi. apply N2 in Hi. rewrite Forall_forall in HF. apply Hhas, HF. exact Hi. }
  assert (HPo : Permutation mid (out ++ rest)) by (rewrite P2; exact HPm).
  assert (Hm : forall i, In i mid -> has st2 i /\ scof st2 i <> None).
  { intros i Hi. rewrite Forall_forall in HF. destruct (HF i Hi) as [H1 H2]. split; [auto|rewrite Hsc; exact H2]. }
  assert (Ho : forall i, In i out -> In i mid) by (intros i Hi; apply (Permutation_in _ (Permutation_sym HPo)), in_or_app; left; exact Hi).
  assert (Hr : forall i, In i rest -> In i mid) by (intros i Hi; apply (Permutation_in _ (Permutation_sym HPo)), in_or_app; right; exact Hi).
  assert (HPref : forall a b, In a mid -> In b mid -> ranked L st2 a b -> preferred st2 a b).
  { intros a b Ha Hb. apply ranked_preferred; try assumption; apply Hm; assumption. }
  split; [exact HI2|]. split; [intros x cx Hx; rewrite C2; apply GE; exact Hx|]. split; [rewrite C2; exact GL|]. split; [rewrite A2, GA; reflexivity|].
  split; [|apply Forall_forall; intros i Hi; apply Hm, Ho; exact Hi].
  exists mid, rest. split; [eapply incl_tran; eauto|]. split; [exact N1|]. split; [exact HND|]. split; [exact HPo|]. split; [rewrite Hl, (Permutation_length P2); reflexivity|].
  split; [exact N2|]. split; [exact U1|]. split; [intros HU; destruct (U2 HU) as [V1 V2]; split; [exact V1|intros HN; apply V2, HND, HN]|].
  intros HB. specialize (HNaN HB). destruct HS as [S2 S3].
  { eapply Permutation_Forall; [exact P2|]. revert HNaN. apply Forall_impl. intros i Hi. unfold sval. rewrite Hsc. exact Hi. }
  split; [|split].
  - clear - S2 HPref Ho. induction S2 as [|a l S1 IH HF]; [constructor|]. constructor; [apply IH; intros z Hz; apply Ho; right; exact Hz|].
    apply Forall_forall. intros b Hb. rewrite Forall_forall in HF. apply HPref; [apply Ho; left; reflexivity|apply Ho; right; exact Hb|auto].
  - intros a b Ha Hb. apply HPref; auto.
  - intros HU HAN a b Ha Hb HNb. apply HPref; [apply N2; exact Ha|exact Hb|]. apply (ranked_cells st1); [symmetry; exact C2|]. apply U3; assumption.
Qed.
End Sel.
