(* Novelty search: what one novelty calculation does to the heap. *)
From Coq Require Import Permutation Sorted.
From Verif Require Import PyNum PyList PyMon PyRng PyStat L_Num L_List L_Rng M_Matching S_Matching L_Matching M_Rule S_Rule L_Rule L_RuleProps M_RuleGen M_Mixing M_GenomeOps M_Discovery S_Discovery L_SasProps L_Discovery L_DiscoveryProps M_Novelty S_Novelty L_NoveltyNum.
From Coq Require Import Lqa.

Section Heap.
Variable L : learner.
Variable D : denv L.
Variable d : nat.
Hypothesis HT : table d (dX D) (dy D).
Hypothesis HX : dX D <> [].
Implicit Types st : nst L.
Notation ok := (good L D d).

Definition msof st (i : nat) : list bool :=
  match nth_error (cells st) i with Some c => match att (crule c) with Some t => match_set t | None => [] end | None => [] end.
Definition has st (i : nat) : Prop := exists c ds, nth_error (cells st) i = Some c /\ cdist c = Some ds.
Definition okcell (c : cell L) : Prop := ok (crule c) /\ (cidx c <> None -> cdist c <> None) /\ forall ds, cdist c = Some ds -> ds <> [] /\ Forall unit ds.
Definition allok st : Prop := Forall (fun c => ok (crule c)) (cells st).
Lemma live_cell st i : live st i -> exists c, nth_error (cells st) i = Some c.
Proof. unfold live. intros H. destruct (nth_error (cells st) i) eqn:E; [eauto|]. apply nth_error_None in E. lia. Qed.
Lemma cell_live st i c : nth_error (cells st) i = Some c -> live st i.
Proof. intros H. unfold live. apply nth_error_Some. congruence. Qed.
Lemma has_live st i : has st i -> live st i. Proof. intros (c & ds & H & _). eapply cell_live; eauto. Qed.
Lemma allok_cell st i c : allok st -> nth_error (cells st) i = Some c -> ok (crule c).
Proof. unfold allok. rewrite Forall_nth_error. intros H Hi. exact (H i c Hi). Qed.
Lemma cell_of_eq st i c : nth_error (cells st) i = Some c -> cell_of L i st = (Ok c, st).
Proof. intros H. unfold cell_of. rewrite H. reflexivity. Qed.
Lemma att_of st i c : allok st -> nth_error (cells st) i = Some c -> exists t, att (crule c) = Some t /\ length (match_set t) = length (dX D).
Proof. intros HA H. pose proof (allok_cell _ _ _ HA H) as HG. destruct (good_att L D d _ HG) as (t & Ht). exists t. split; [exact Ht|]. eapply good_lengths; eauto. Qed.
Lemma matches_of_eq st i : allok st -> live st i -> matches_of L i st = (Ok (msof st i), st).
Proof.
  intros HA HL. destruct (live_cell st i HL) as (c & H). destruct (att_of st i c HA H) as (t & Ht & _).
  unfold matches_of, bind. rewrite (cell_of_eq st i c H). cbn beta iota. unfold get_att, of_option, lift. rewrite Ht. unfold ret, msof. rewrite H, Ht. reflexivity.
Qed.
Lemma msof_len st i : allok st -> live st i -> length (msof st i) = length (dX D).
Proof. intros HA HL. destruct (live_cell st i HL) as (c & H). destruct (att_of st i c HA H) as (t & Ht & HE). unfold msof. rewrite H, Ht. exact HE. Qed.
Lemma msof_ne st i : allok st -> live st i -> msof st i <> [].
Proof. intros HA HL E. pose proof (msof_len st i HA HL) as H. rewrite E in H. cbn in H. apply HX. destruct (dX D); [reflexivity|discriminate]. Qed.

(* every cell keeps its rule, index and score; distances are appended to *)
Definition appended st st' (f : nat -> list Q) : Prop :=
  arch st' = arch st /\ gen st' = gen st /\
  forall x, nth_error (cells st') x = option_map (fun c => mkCell (crule c) (option_map (fun ds => ds ++ f x) (cdist c)) (cidx c) (cscore c)) (nth_error (cells st) x).
Lemma appended_refl st : appended st st (fun _ => []).
Proof.
  split; [reflexivity|]. split; [reflexivity|]. intros x. destruct (nth_error (cells st) x) as [[r ds k s]|]; cbn; [|reflexivity]. destruct ds; cbn; rewrite ?app_nil_r; reflexivity.
Qed.
Lemma appended_trans st st1 st2 f h : appended st st1 f -> appended st1 st2 h -> appended st st2 (fun x => f x ++ h x).
Proof.
  intros (A1 & G1 & H1) (A2 & G2 & H2). split; [congruence|]. split; [congruence|]. intros x. rewrite H2, H1.
  destruct (nth_error (cells st) x) as [[r ds k s]|]; cbn; [|reflexivity]. destruct ds; cbn; rewrite ?app_assoc; reflexivity.
Qed.
Lemma appended_ext st st' f h : appended st st' f -> (forall x, f x = h x) -> appended st st' h.
Proof.
  intros (A1 & G1 & H1) HE. split; [exact A1|]. split; [exact G1|]. intros x. rewrite H1.
  destruct (nth_error (cells st) x) as [[r ds k s]|]; cbn; [|reflexivity]. rewrite HE. reflexivity.
Qed.
Lemma appended_cell st st' f x c : appended st st' f -> nth_error (cells st) x = Some c ->
  nth_error (cells st') x = Some (mkCell (crule c) (option_map (fun ds => ds ++ f x) (cdist c)) (cidx c) (cscore c)).
Proof. intros (_ & _ & H) Hx. rewrite H, Hx. reflexivity. Qed.
Lemma appended_has st st' f i : appended st st' f -> has st i -> has st' i.
Proof. intros HA (c & ds & H & Hd). rewrite <- (app_nil_r ds) in Hd. exists (mkCell (crule c) (option_map (fun ds => ds ++ f i) (cdist c)) (cidx c) (cscore c)), (ds ++ f i).
  split; [eapply appended_cell; eauto|]. cbn. rewrite Hd, app_nil_r. reflexivity. Qed.
Lemma appended_ms st st' f i : appended st st' f -> msof st' i = msof st i.
Proof. intros (_ & _ & H). unfold msof. rewrite H. destruct (nth_error (cells st) i); reflexivity. Qed.
Lemma appended_len st st' f : appended st st' f -> length (cells st') = length (cells st).
Proof.
  intros (_ & _ & H). apply Nat.le_antisymm; apply Nat.nlt_ge; intros HL.
  - assert (E : nth_error (cells st') (length (cells st)) <> None) by (apply nth_error_Some; exact HL).
    rewrite H in E. destruct (nth_error (cells st) (length (cells st))) eqn:E2; [|apply E; reflexivity]. assert (E3 : nth_error (cells st) (length (cells st)) <> None) by congruence.
    apply nth_error_Some in E3. lia.
  - assert (E : nth_error (cells st) (length (cells st')) <> None) by (apply nth_error_Some; exact HL).
    destruct (nth_error (cells st) (length (cells st'))) eqn:E2; [|congruence]. pose proof (H (length (cells st'))) as HH. rewrite E2 in HH. cbn in HH.
    assert (E3 : nth_error (cells st') (length (cells st')) <> None) by congruence. apply nth_error_Some in E3. lia.
Qed.
Lemma appended_ok st st' f : appended st st' f -> allok st -> allok st'.
Proof.
  intros (_ & _ & H). unfold allok. rewrite !Forall_nth_error. intros HA i c Hi. rewrite H in Hi. destruct (nth_error (cells st) i) as [c0|] eqn:E; [|discriminate].
  injection Hi as <-. cbn. exact (HA i c0 E).
Qed.

Lemma push_dist_eq st i q : has st i -> exists st', push_dist L i q st = (Ok tt, st') /\ appended st st' (fun x => if Nat.eqb x i then [q] else []).
Proof.
  intros (c & ds & H & Hd). unfold push_dist, bind. rewrite (cell_of_eq st i c H). rewrite Hd. unfold set_cell. eexists. split; [reflexivity|].
  split; [reflexivity|]. split; [reflexivity|]. intros x. cbn [cells]. destruct (Nat.eqb_spec x i) as [->|E].
  - rewrite update_nth_same by (eapply cell_live; eauto). rewrite H. cbn. rewrite Hd. reflexivity.
  - rewrite update_nth_other by congruence. destruct (nth_error (cells st) x) as [[r dd k s]|]; cbn; [|reflexivity]. destruct dd; cbn; rewrite ?app_nil_r; reflexivity.
Qed.
Definition step_add (h : nat -> nat -> Q) (i j x : nat) : list Q := (if Nat.eqb x j then [h i j] else []) ++ (if Nat.eqb x i then [h i j] else []).
Definition added (h : nat -> nat -> Q) (i : nat) (l : list nat) (x : nat) : list Q := flat_map (fun j => step_add h i j x) l.
Definition hd st (i j : nat) : Q := hdist (msof st i) (msof st j).
Lemma compare_eq st i j : allok st -> has st i -> has st j ->
  exists st', compare_with L i j st = (Ok tt, st') /\ appended st st' (step_add (hd st) i j).
Proof.
  intros HA Hi Hj. unfold compare_with, bind. rewrite (matches_of_eq st i HA (has_live _ _ Hi)). rewrite (matches_of_eq st j HA (has_live _ _ Hj)).
  unfold lift. rewrite hamming_eq; [|rewrite !msof_len; auto using has_live|apply msof_ne; auto using has_live].
  destruct (push_dist_eq st j (hd st i j) Hj) as (st1 & E1 & A1). unfold hd in E1. rewrite E1. cbn beta iota.
  destruct (push_dist_eq st1 i (hd st i j)) as (st2 & E2 & A2); [eapply appended_has; eauto|]. unfold hd in E2. rewrite E2. exists st2. split; [reflexivity|].
  exact (appended_trans _ _ _ _ _ A1 A2).
Qed.
Lemma hd_appended st st' f i j : appended st st' f -> hd st' i j = hd st i j.
Proof. intros HA. unfold hd. rewrite !(appended_ms _ _ _ _ HA). reflexivity. Qed.
Lemma added_ext h h' i l x : (forall a b, h a b = h' a b) -> added h i l x = added h' i l x.
Proof. intros H. unfold added. induction l as [|j l IH]; cbn; [reflexivity|]. unfold step_add at 1 3. rewrite !H. f_equal. exact IH. Qed.
Lemma compare_all st i l : allok st -> has st i -> Forall (has st) l ->
  exists st', miter (compare_with L i) l st = (Ok tt, st') /\ appended st st' (added (hd st) i l).
Proof.
  revert st. induction l as [|j l IH]; intros st HA Hi Hl; cbn [miter].
  - exists st. split; [reflexivity|apply appended_refl].
  - inversion Hl as [|? ? Hj Hl']; subst. destruct (compare_eq st i j HA Hi Hj) as (st1 & E1 & A1). unfold bind at 1. rewrite E1.
    destruct (IH st1) as (st2 & E2 & A2).
    + eapply appended_ok; eauto.
    + eapply appended_has; eauto.
    + revert Hl'. apply Forall_impl. intros a. eapply appended_has; eauto.
    + exists st2. split; [exact E2|]. eapply appended_ext; [exact (appended_trans _ _ _ _ _ A1 A2)|]. intros x. cbn beta. unfold added at 2. cbn [flat_map]. f_equal.
      apply added_ext. intros a b. eapply hd_appended; eauto.
Qed.
Lemma added_unit st i l x : allok st -> live st i -> Forall unit (added (hd st) i l x).
Proof.
  intros HA HL. apply Forall_forall. intros q Hq. unfold added in Hq. apply in_flat_map in Hq as (j & _ & Hq). unfold step_add in Hq.
  assert (HU : unit (hd st i j)) by (apply hdist_unit; apply msof_ne; auto).
  apply in_app_or in Hq as [Hq|Hq]; [destruct (Nat.eqb x j)|destruct (Nat.eqb x i)]; cbn in Hq; try contradiction; destruct Hq as [<-|[]]; exact HU.
Qed.

(* one rule compared with the local archive *)
Definition compared st (i : nat) (local : list nat) st' : Prop :=
  arch st' = arch st /\ gen st' = gen st /\ length (cells st') = length (cells st) /\
  (forall c, nth_error (cells st) i = Some c -> nth_error (cells st') i = Some (mkCell (crule c) (Some (added (hd st) i local i ++ [0])) (Some (length local)) (cscore c))) /\
  (forall x, x <> i -> nth_error (cells st') x = option_map (fun c => mkCell (crule c) (option_map (fun ds => ds ++ added (hd st) i local x) (cdist c)) (cidx c) (cscore c)) (nth_error (cells st) x)).
Lemma upd_ms st i c c' x : nth_error (cells st) i = Some c -> crule c' = crule c -> msof (mkNst (update (cells st) i c') (arch st) (gen st)) x = msof st x.
Proof.
  intros H HE. unfold msof. cbn [cells]. destruct (Nat.eq_dec x i) as [->|N]; [rewrite update_nth_same by (eapply cell_live; eauto); rewrite H, HE; reflexivity|].
  rewrite update_nth_other by congruence. reflexivity.
Qed.
Lemma upd_ok st i c c' : allok st -> nth_error (cells st) i = Some c -> crule c' = crule c -> allok (mkNst (update (cells st) i c') (arch st) (gen st)).
Proof.
  unfold allok. intros HA H HE. rewrite Forall_nth_error in *. cbn [cells]. intros j cj Hj. destruct (Nat.eq_dec j i) as [->|N].
  - rewrite update_nth_same in Hj by (eapply cell_live; eauto). injection Hj as <-. rewrite HE. exact (HA i c H).
  - rewrite update_nth_other in Hj by congruence. exact (HA j cj Hj).
Qed.
Definition compare_step (i : nat) (local : list nat) (c : cell L) : St (nst L) Datatypes.unit :=
  set_cell L i (mkCell (crule c) (Some []) (cidx c) (cscore c)) ;;
  miter (compare_with L i) local ;;
  push_dist L i 0 ;;
  let* c' := cell_of L i in set_cell L i (mkCell (crule c') (cdist c') (Some (length local)) (cscore c')).
Lemma compare_step_eq st i local c : allok st -> nth_error (cells st) i = Some c -> Forall (fun j => j = i \/ has st j) local ->
  exists st', compare_step i local c st = (Ok tt, st') /\ compared st i local st'.
Proof.
  intros HA H HL. unfold compare_step. set (c0 := mkCell (crule c) (Some []) (cidx c) (cscore c)).
  set (st0 := mkNst (update (cells st) i c0) (arch st) (gen st)). unfold bind at 1, set_cell at 1. fold st0.
  assert (HA0 : allok st0) by (eapply upd_ok; eauto). assert (H0 : nth_error (cells st0) i = Some c0) by (apply update_nth_same; eapply cell_live; eauto).
  assert (Hi0 : has st0 i) by (exists c0, []; split; [exact H0|reflexivity]).
  assert (Hl0 : Forall (has st0) local).
  { revert HL. apply Forall_impl. intros j [->|Hj]; [exact Hi0|]. destruct (Nat.eq_dec j i) as [->|N]; [exact Hi0|]. destruct Hj as (cj & ds & Hj & Hd).
    exists cj, ds. split; [|exact Hd]. unfold st0. cbn. rewrite update_nth_other by congruence. exact Hj. }
  destruct (compare_all st0 i local HA0 Hi0 Hl0) as (st1 & E1 & A1). unfold bind at 1. rewrite E1.
  destruct (push_dist_eq st1 i 0) as (st2 & E2 & A2); [eapply appended_has; eauto|]. unfold bind at 1. rewrite E2.
  pose proof (appended_trans _ _ _ _ _ A1 A2) as A. pose proof (appended_cell _ _ _ _ _ A H0) as H2. cbn [crule cdist cidx cscore c0 option_map app] in H2. rewrite Nat.eqb_refl in H2.
  unfold bind. rewrite (cell_of_eq _ _ _ H2). unfold set_cell. eexists. split; [reflexivity|]. cbn [crule cdist cidx cscore].
  assert (HH : forall a b, hd st0 a b = hd st a b). { intros a b. unfold hd. unfold st0. rewrite !(upd_ms st i c c0) by (exact H || reflexivity). reflexivity. }
  destruct A as (Aa & Ag & An). split; [exact Aa|]. split; [exact Ag|]. cbn [cells].
  assert (HLn : length (cells st2) = length (cells st)).
  { rewrite (appended_len st1 st2 _ A2), (appended_len st0 st1 _ A1). unfold st0. cbn. apply update_length. }
  split; [rewrite update_length; exact HLn|]. split.
  - intros c1 Hc1. assert (c1 = c) by congruence. subst c1. rewrite update_nth_same by (rewrite HLn; eapply cell_live; eauto). rewrite (added_ext _ _ _ _ _ HH). reflexivity.
  - intros x Hx. rewrite update_nth_other by congruence. rewrite An. unfold st0. cbn [cells]. rewrite update_nth_other by congruence.
    destruct (nth_error (cells st) x) as [[r dd k s]|]; cbn; [|reflexivity]. rewrite (added_ext _ _ _ _ _ HH). apply Nat.eqb_neq in Hx. rewrite Hx, app_nil_r. reflexivity.
Qed.
Lemma mark_cons local i rs st c : nth_error (cells st) i = Some c ->
  mark local (i :: rs) st = ((if needs_distances L c (length local) then compare_step i local c else ret tt) ;; mark (local ++ [i]) rs) st.
Proof. intros H. cbn [mark]. unfold bind at 1. rewrite (cell_of_eq _ _ _ H). reflexivity. Qed.

(* ----- invariants ----- *)
Definition okheap st : Prop := Forall okcell (cells st).
Lemma okheap_allok st : okheap st -> allok st.
Proof. unfold okheap, allok. apply Forall_impl. intros c [H _]. exact H. Qed.
(* the same objects, with at least the attributes they had *)
Definition grown st st' : Prop :=
  arch st' = arch st /\ gen st' = gen st /\ length (cells st') = length (cells st) /\
  forall x c, nth_error (cells st) x = Some c -> exists c', nth_error (cells st') x = Some c' /\ crule c' = crule c /\ (cdist c <> None -> cdist c' <> None).
Lemma grown_refl st : grown st st. Proof. split; [reflexivity|]. split; [reflexivity|]. split; [reflexivity|]. intros x c H. exists c. auto. Qed.
Lemma grown_trans a b c : grown a b -> grown b c -> grown a c.
Proof.
  intros (A1 & G1 & L1 & H1) (A2 & G2 & L2 & H2). split; [congruence|]. split; [congruence|]. split; [congruence|]. intros x c0 Hx.
  destruct (H1 x c0 Hx) as (c1 & Hc1 & E1 & F1). destruct (H2 x c1 Hc1) as (c2 & Hc2 & E2 & F2). exists c2. split; [exact Hc2|]. split; [congruence|auto].
Qed.
Lemma grown_has a b i : grown a b -> has a i -> has b i.
Proof.
  intros (_ & _ & _ & H) (c & ds & Hc & Hd). destruct (H i c Hc) as (c' & Hc' & _ & HF). destruct (cdist c') as [ds'|] eqn:E; [exists c', ds'; auto|].
  exfalso. apply HF; congruence.
Qed.
Lemma grown_live a b i : grown a b -> live a i -> live b i.
Proof. intros (_ & _ & HL & _) H. unfold live in *. congruence. Qed.
Lemma grown_ms a b i : grown a b -> live a i -> msof b i = msof a i.
Proof. intros (_ & _ & _ & H) HL. destruct (live_cell a i HL) as (c & Hc). destruct (H i c Hc) as (c' & Hc' & E & _). unfold msof. rewrite Hc, Hc', E. reflexivity. Qed.
Lemma compared_grown st i local st' : compared st i local st' -> grown st st' /\ (live st i -> has st' i).
Proof.
  intros (A1 & G1 & L1 & Hi & Hx). split.
  - split; [exact A1|]. split; [exact G1|]. split; [exact L1|]. intros x c Hc. destruct (Nat.eq_dec x i) as [->|N].
    + rewrite (Hi c Hc). eexists. split; [reflexivity|]. cbn. split; [reflexivity|discriminate].
    + rewrite (Hx x N), Hc. cbn. eexists. split; [reflexivity|]. cbn. split; [reflexivity|]. destruct (cdist c); cbn; [discriminate|auto].
  - intros HL. destruct (live_cell st i HL) as (c & Hc). eexists. eexists. split; [exact (Hi c Hc)|reflexivity].
Qed.
Lemma compared_okheap st i local st' : compared st i local st' -> okheap st -> live st i -> okheap st'.
Proof.
  intros (A1 & G1 & L1 & Hi & Hx) HO HL. pose proof (okheap_allok _ HO) as HA. unfold okheap in *. rewrite Forall_nth_error in *. intros x c' Hc'.
  destruct (Nat.eq_dec x i) as [->|N].
  - destruct (live_cell st i HL) as (c & Hc). rewrite (Hi c Hc) in Hc'. injection Hc' as <-. destruct (HO i c Hc) as (O1 & O2 & O3). split; [exact O1|]. cbn. split; [discriminate|].
    intros ds E. injection E as <-. split; [destruct (added (hd st) i local i); discriminate|]. apply Forall_app. split; [apply added_unit; auto|]. constructor; [split; lra|constructor].
  - rewrite (Hx x N) in Hc'. destruct (nth_error (cells st) x) as [c|] eqn:E; [|discriminate]. injection Hc' as <-. destruct (HO x c E) as (O1 & O2 & O3). split; [exact O1|]. cbn. split.
    + intros HH. specialize (O2 HH). destruct (cdist c); cbn; [discriminate|congruence].
    + intros ds Hd. destruct (cdist c) as [ds0|] eqn:E2; [|discriminate]. injection Hd as <-. destruct (O3 ds0 eq_refl) as [N0 U0]. split; [destruct ds0; [congruence|discriminate]|].
      apply Forall_app. split; [exact U0|apply added_unit; auto].
Qed.
(* marking: always succeeds, everything marked has distances afterwards *)
Lemma mark_total rs : forall local st, okheap st -> Forall (has st) local -> Forall (live st) rs ->
  exists st', mark local rs st = (Ok (local ++ rs), st') /\ okheap st' /\ grown st st' /\ Forall (has st') (local ++ rs).
Proof.
  induction rs as [|i rs IH]; intros local st HO HL HR.
  - exists st. rewrite app_nil_r. split; [reflexivity|]. split; [exact HO|]. split; [apply grown_refl|exact HL].
  - inversion HR as [|? ? Hi HR']; subst. destruct (live_cell st i Hi) as (c & Hc). rewrite (mark_cons _ _ _ _ _ Hc).
    assert (HS : exists st1, (if needs_distances L c (length local) then compare_step i local c else ret tt) st = (Ok tt, st1) /\ okheap st1 /\ grown st st1 /\ has st1 i).
    { destruct (needs_distances L c (length local)) eqn:E.
      - destruct (compare_step_eq st i local c (okheap_allok _ HO) Hc) as (st1 & E1 & C1); [revert HL; apply Forall_impl; auto|].
        exists st1. split; [exact E1|]. destruct (compared_grown _ _ _ _ C1) as [G1 H1]. split; [eapply compared_okheap; eauto|]. split; [exact G1|apply H1; exact Hi].
      - exists st. split; [reflexivity|]. split; [exact HO|]. split; [apply grown_refl|]. unfold needs_distances in E. destruct (cidx c) as [k|] eqn:Ek; [|discriminate].
        unfold okheap in HO. rewrite Forall_nth_error in HO. destruct (HO i c Hc) as (_ & O2 & _). destruct (cdist c) as [ds|] eqn:Ed; [exists c, ds; auto|]. exfalso. apply O2; congruence. }
    destruct HS as (st1 & E1 & HO1 & G1 & Hi1). destruct (IH (local ++ [i]) st1 HO1) as (st2 & E2 & HO2 & G2 & F2).
    + apply Forall_app. split; [revert HL; apply Forall_impl; intros a; apply grown_has; exact G1|constructor; [exact Hi1|constructor]].
    + revert HR'. apply Forall_impl. intros a. apply grown_live. exact G1.
    + exists st2. rewrite <- app_assoc in E2, F2. split; [unfold bind; rewrite E1; exact E2|]. split; [exact HO2|]. split; [eapply grown_trans; eauto|exact F2].
Qed.
End Heap.
