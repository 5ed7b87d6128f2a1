(* Novelty search: filters, scores, the front and the best. *)
From Coq Require Import Permutation Sorted.
From Verif Require Import PyNum PyList PyMon PyRng PyStat L_Num L_List L_Rng M_Matching S_Matching L_Matching M_Rule S_Rule L_Rule L_RuleProps M_RuleGen M_Mixing M_GenomeOps M_Discovery S_Discovery L_SasProps L_Discovery L_DiscoveryProps M_Novelty S_Novelty L_NoveltyNum L_Novelty.
From Coq Require Import Lqa.

Section Score.
Variable L : learner.
Variable D : denv L.
Variable d : nat.
Hypothesis HT : table d (dX D) (dy D).
Hypothesis HX : dX D <> [].
Implicit Types st : nst L.
Notation allok := (allok L D d).
Notation okheap := (okheap L D d).
Notation has := (has L).
Notation grown := (grown L).
Notation msof := (msof L).

Lemma mmap_pure {A B} (f : A -> St (nst L) B) (v : A -> B) st l : Forall (fun a => f a st = (Ok (v a), st)) l -> mmap f l st = (Ok (map v l), st).
Proof. induction 1 as [|a l H HF IH]; cbn [mmap map]; [reflexivity|]. unfold bind. rewrite H, IH. reflexivity. Qed.
Definition fitof st (i : nat) : num := match nth_error (cells st) i with Some c => rfit (crule c) | None => NaN end.
Definition expof st (i : nat) : Q := match nth_error (cells st) i with Some c => match att (crule c) with Some t => experience t | None => 0 end | None => 0 end.
Definition dsof st (i : nat) : list Q := match nth_error (cells st) i with Some c => match cdist c with Some ds => ds | None => [] end | None => [] end.
Lemma fitness_of_eq st i : allok st -> live st i -> fitness_of L i st = (Ok (fitof st i), st).
Proof.
  intros HA HL. destruct (live_cell L st i HL) as (c & H). destruct (att_of L D d st i c HA H) as (t & Ht & _).
  unfold fitness_of, bind. rewrite (cell_of_eq L st i c H). cbn beta iota. unfold get_att, of_option, lift. rewrite Ht. unfold ret, fitof. rewrite H. unfold rfit, fit_or_nan. rewrite Ht. reflexivity.
Qed.
Lemma experience_of_eq st i : allok st -> live st i -> experience_of L i st = (Ok (expof st i), st).
Proof.
  intros HA HL. destruct (live_cell L st i HL) as (c & H). destruct (att_of L D d st i c HA H) as (t & Ht & _).
  unfold experience_of, bind. rewrite (cell_of_eq L st i c H). cbn beta iota. unfold get_att, of_option, lift. rewrite Ht. unfold ret, expof. rewrite H, Ht. reflexivity.
Qed.

(* ----- filters ----- *)
Definition cnt st (i : nat) : Q := qofnat (count_true (msof st i)).
Lemma filter_combine {A B} (P : B -> bool) (v : A -> B) (l : list A) : map fst (filter (fun p => P (snd p)) (combine l (map v l))) = filter (fun a => P (v a)) l.
Proof. induction l as [|a l IH]; cbn; [reflexivity|]. destruct (P (v a)); cbn; rewrite IH; reflexivity. Qed.
Lemma filter_minimal st q rs : allok st -> Forall (live st) rs -> rs <> [] -> 0 <= q <= 100 ->
  exists thr, filter_rules (TMinimal q) rs st = (Ok (filter (fun i => qle thr (cnt st i)) rs), st) /\ thr <= 25 /\
    (exists j, (j < length rs)%nat /\ qofnat j < q / 100 * qofnat (length rs - 1) + 1 /\ thr <= nth j (PyList.sort qlt (map (cnt st) rs)) 0).
Proof.
  intros HA HL HR Hq. cbn [filter_rules].
  unfold bind at 1. rewrite (mmap_pure _ (cnt st)).
  2:{ revert HL. apply Forall_impl. intros i Hi. unfold bind. rewrite (matches_of_eq L D d st i HA Hi). reflexivity. }
  destruct (percentile_total (map (cnt st) rs) q Hq) as (p & Hp); [destruct rs; [congruence|discriminate]|].
  unfold bind, lift. rewrite Hp. exists (if qlt 25 p then 25 else p).
  destruct (percentile_between (map (cnt st) rs) q p Hq) as (j & J1 & J2 & J3 & J4); [destruct rs; [congruence|discriminate]|exact Hp|].
  rewrite map_length in J1, J2.
  split; [|split].
  - unfold ret. f_equal. f_equal. change (enough (if qlt 25 p then 25 else p)) with (fun p0 : nat * Q => (fun c => qle (if qlt 25 p then 25 else p) c) (snd p0)). apply filter_combine.
  - destruct (qlt_spec 25 p); lra.
  - exists j. split; [exact J1|]. split; [exact J2|]. destruct (qlt_spec 25 p); lra.
Qed.
Lemma filter_other st t rs : (forall q, t <> TMinimal q) -> filter_rules t rs st = (Ok rs, st).
Proof. intros H. destruct t; try reflexivity. exfalso. eapply H; reflexivity. Qed.
Lemma max_exists {A} (key : A -> Q) l : l <> [] -> exists a, In a l /\ forall b, In b l -> key b <= key a.
Proof.
  induction l as [|a l IH]; intros H; [congruence|]. destruct l as [|b l]; [exists a; split; [left; reflexivity|intros b [->|[]]; lra]|].
  destruct IH as (m & Hm & HM); [discriminate|]. destruct (Qlt_le_dec (key m) (key a)) as [Hlt|Hle].
  - exists a. split; [left; reflexivity|]. intros x [<-|Hx]; [lra|]. specialize (HM x Hx). lra.
  - exists m. split; [right; exact Hm|]. intros x [<-|Hx]; [exact Hle|]. apply HM. exact Hx.
Qed.
Lemma thr_le_max st rs thr j : (j < length rs)%nat -> thr <= nth j (PyList.sort qlt (map (cnt st) rs)) 0 -> exists a, In a rs /\ thr <= cnt st a.
Proof.
  intros Hj Ht. assert (HI : In (nth j (PyList.sort qlt (map (cnt st) rs)) 0) (map (cnt st) rs)).
  { eapply Permutation_in; [apply sort_perm|]. apply nth_In. rewrite sort_length, map_length. exact Hj. }
  apply in_map_iff in HI as (a & E & Ha). exists a. split; [exact Ha|]. rewrite E. exact Ht.
Qed.
Lemma filter_nonempty {A} (P : A -> bool) l a : In a l -> P a = true -> filter P l <> [].
Proof. intros H HP E. assert (In a (filter P l)) by (apply filter_In; auto). rewrite E in H0. exact H0. Qed.
Lemma filter_total st t rs : allok st -> Forall (live st) rs -> rs <> [] -> type_ok t ->
  exists out, filter_rules t rs st = (Ok out, st) /\ out <> [] /\ incl out rs /\ ((forall q, t <> TMinimal q) -> out = rs).
Proof.
  intros HA HL HR Ht. destruct t as [|q|range].
  - exists rs. split; [reflexivity|]. split; [exact HR|]. split; [apply incl_refl|reflexivity].
  - destruct (filter_minimal st q rs HA HL HR Ht) as (thr & E & _ & (j & J1 & _ & J3)). exists (filter (fun i => qle thr (cnt st i)) rs). split; [exact E|].
    destruct (thr_le_max st rs thr j J1 J3) as (a & Ha & Hta). split; [eapply filter_nonempty; [exact Ha|apply qle_iff; exact Hta]|].
    split; [intros i Hi; apply filter_In in Hi; apply Hi|]. intros H. exfalso. eapply H; reflexivity.
  - exists rs. split; [reflexivity|]. split; [exact HR|]. split; [apply incl_refl|reflexivity].
Qed.

(* ----- scores ----- *)
Definition lcv (t : nstype) st (local : list nat) (i : nat) : Q :=
  match t with TLocal range => qofnat (count_true (map (fun h => nlt (fitof st i) h) (map (fitof st) (firstn range local)))) / qofnat range | _ => 0 end.
Definition basev (b : ncalc) (k : nat) st (i : nat) : num :=
  match b with
  | NBiased nb fb => nadd (nmul (Fin nb) (Fin (mean_nearest k (dsof st i)))) (nmul (Fin fb) (ndiv (fitof st i) (Fin 100)))
  | _ => Fin (mean_nearest k (dsof st i))
  end.
Definition scorev b t k st local i : num := nadd (Fin (lcv t st local i)) (basev b k st i).
Lemma local_eq t st local i : allok st -> type_ok t -> live st i -> Forall (live st) local -> local_competition t i local st = (Ok (lcv t st local i), st).
Proof.
  intros HA Ht Hi HL. destruct t as [|q|range]; try reflexivity. cbn [local_competition]. unfold bind at 1. rewrite (fitness_of_eq st i HA Hi).
  unfold bind. rewrite (mmap_pure _ (fitof st)). 2:{ apply Forall_forall. intros j Hj. apply In_firstn in Hj. rewrite Forall_forall in HL. apply fitness_of_eq; auto. }
  cbn in Ht. destruct (Nat.eqb_spec range 0) as [E|E]; [lia|]. reflexivity.
Qed.
Lemma base_eq b k st i : okheap st -> has st i -> base_score L b k i st = (Ok (basev b k st i), st).
Proof.
  intros HO Hi. pose proof (okheap_allok L D d st HO) as HA. destruct Hi as (c & ds & Hc & Hd). unfold base_score, bind at 1. rewrite (cell_of_eq L st i c Hc).
  unfold bind at 1, lift. rewrite Hd. cbn [of_option]. unfold L_Novelty.okheap in HO. rewrite Forall_nth_error in HO. destruct (HO i c Hc) as (_ & _ & O3). destruct (O3 ds Hd) as [N _].
  destruct ds as [|q0 ds0]; [congruence|]. set (ds := q0 :: ds0) in *. unfold bind at 1, ret at 1. assert (E : dsof st i = ds) by (unfold dsof; rewrite Hc, Hd; reflexivity).
  destruct b; unfold basev; rewrite E; try reflexivity. unfold bind. rewrite (fitness_of_eq st i HA (cell_live L st i c Hc)). reflexivity.
Qed.
(* some scores replaced, nothing else touched *)
Definition scored st st' (f : nat -> option num) : Prop :=
  arch st' = arch st /\ gen st' = gen st /\
  forall x, nth_error (cells st') x = option_map (fun c => mkCell (crule c) (cdist c) (cidx c) (match f x with Some s => Some s | None => cscore c end)) (nth_error (cells st) x).
Lemma scored_fit st st' f i : scored st st' f -> fitof st' i = fitof st i.
Proof. intros (_ & _ & H). unfold fitof. rewrite H. destruct (nth_error (cells st) i); reflexivity. Qed.
Lemma scored_ds st st' f i : scored st st' f -> dsof st' i = dsof st i.
Proof. intros (_ & _ & H). unfold dsof. rewrite H. destruct (nth_error (cells st) i); reflexivity. Qed.
Lemma scored_ms st st' f i : scored st st' f -> msof st' i = msof st i.
Proof. intros (_ & _ & H). unfold L_Novelty.msof. rewrite H. destruct (nth_error (cells st) i); reflexivity. Qed.
Lemma scored_has st st' f i : scored st st' f -> has st i -> has st' i.
Proof. intros (_ & _ & H) (c & ds & Hc & Hd). eexists. exists ds. rewrite H, Hc. cbn. split; [reflexivity|exact Hd]. Qed.
Lemma scored_live st st' f i : scored st st' f -> live st i -> live st' i.
Proof. intros (_ & _ & H) HL. destruct (live_cell L st i HL) as (c & Hc). eapply cell_live. rewrite H, Hc. reflexivity. Qed.
Lemma scored_okheap st st' f : scored st st' f -> okheap st -> okheap st'.
Proof.
  intros (_ & _ & H). unfold L_Novelty.okheap. rewrite !Forall_nth_error. intros HO i c Hi. rewrite H in Hi. destruct (nth_error (cells st) i) as [c0|] eqn:E; [|discriminate].
  injection Hi as <-. exact (HO i c0 E).
Qed.
Lemma nth_len {A B} (l : list A) (m : list B) : (forall x, nth_error l x = None <-> nth_error m x = None) -> length l = length m.
Proof.
  intros H. apply Nat.le_antisymm; apply Nat.nlt_ge; intros HL.
  - assert (E : nth_error m (length m) = None) by (apply nth_error_None; lia). apply H in E. apply nth_error_None in E. lia.
  - assert (E : nth_error l (length l) = None) by (apply nth_error_None; lia). apply H in E. apply nth_error_None in E. lia.
Qed.
Lemma scored_grown st st' f : scored st st' f -> grown st st'.
Proof.
  intros (A1 & G1 & H). split; [exact A1|]. split; [exact G1|]. split.
  - apply nth_len. intros x. rewrite H. destruct (nth_error (cells st) x); cbn; split; congruence.
  - intros x c Hc. eexists. rewrite H, Hc. cbn. split; [reflexivity|]. cbn. auto.
Qed.
Lemma scored_trans a b c f h : scored a b f -> scored b c h -> scored a c (fun x => match h x with Some s => Some s | None => f x end).
Proof.
  intros (A1 & G1 & H1) (A2 & G2 & H2). split; [congruence|]. split; [congruence|]. intros x. rewrite H2, H1. destruct (nth_error (cells a) x) as [c0|]; cbn; [|reflexivity].
  destruct (h x), (f x); reflexivity.
Qed.
Lemma score_rule_eq b t k local st i : okheap st -> type_ok t -> has st i -> Forall (live st) local ->
  exists st', score_rule L b t k local i st = (Ok tt, st') /\ scored st st' (fun x => if Nat.eqb x i then Some (scorev b t k st local i) else None).
Proof.
  intros HO Ht Hi HL. pose proof (okheap_allok L D d st HO) as HA. pose proof (has_live L st i Hi) as Hl. unfold score_rule, bind at 1. rewrite (local_eq t st local i HA Ht Hl HL).
  unfold bind at 1. rewrite (base_eq b k st i HO Hi). destruct (live_cell L st i Hl) as (c & Hc). unfold bind. rewrite (cell_of_eq L st i c Hc). unfold set_cell.
  eexists. split; [reflexivity|]. split; [reflexivity|]. split; [reflexivity|]. intros x. cbn [cells]. destruct (Nat.eqb_spec x i) as [->|E].
  - rewrite update_nth_same by exact Hl. rewrite Hc. reflexivity.
  - rewrite update_nth_other by congruence. destruct (nth_error (cells st) x) as [[r dd kk s]|]; reflexivity.
Qed.
Lemma scorev_scored b t k st st' f local i : scored st st' f -> scorev b t k st' local i = scorev b t k st local i.
Proof.
  intros HS. unfold scorev, lcv, basev. rewrite !(scored_fit _ _ _ _ HS), !(scored_ds _ _ _ _ HS).
  destruct t as [|q|range]; try reflexivity. replace (map (fitof st') (firstn range local)) with (map (fitof st) (firstn range local)); [reflexivity|].
  apply map_ext. intros a. symmetry. eapply scored_fit; eauto.
Qed.
Lemma scores_eq b t k local l : forall st, okheap st -> type_ok t -> Forall (has st) l -> Forall (live st) local ->
  exists st' f, miter (score_rule L b t k local) l st = (Ok tt, st') /\ scored st st' f /\
    (forall x, In x l -> f x = Some (scorev b t k st local x)) /\ (forall x, ~ In x l -> f x = None).
Proof.
  induction l as [|i l IH]; intros st HO Ht HF HL; cbn [miter].
  - exists st, (fun _ => None). split; [reflexivity|]. split; [|split; [intros x []|reflexivity]].
    split; [reflexivity|]. split; [reflexivity|]. intros x. destruct (nth_error (cells st) x) as [[r dd k0 s]|]; reflexivity.
  - inversion HF as [|? ? Hi HF']; subst. destruct (score_rule_eq b t k local st i HO Ht Hi HL) as (st1 & E1 & S1). unfold bind. rewrite E1.
    destruct (IH st1) as (st2 & f & E2 & S2 & F2 & N2).
    + eapply scored_okheap; eauto.
    + exact Ht.
    + revert HF'. apply Forall_impl. intros a. eapply scored_has; eauto.
    + revert HL. apply Forall_impl. intros a. eapply scored_live; eauto.
    + eexists. eexists. split; [exact E2|]. split; [exact (scored_trans _ _ _ _ _ S1 S2)|]. cbn beta. split.
      * intros x Hx. destruct (in_dec Nat.eq_dec x l) as [Hxl|Hxl].
        -- rewrite (F2 x Hxl). f_equal. eapply scorev_scored; eauto.
        -- rewrite (N2 x Hxl). destruct Hx as [->|Hx]; [|contradiction]. rewrite Nat.eqb_refl. reflexivity.
      * intros x Hx. rewrite (N2 x) by (intros H; apply Hx; right; exact H). destruct (Nat.eqb_spec x i) as [->|E]; [exfalso; apply Hx; left; reflexivity|reflexivity].
Qed.
Definition scof st (i : nat) : option num := match nth_error (cells st) i with Some c => cscore c | None => None end.

(* ----- the whole calculation ----- *)
Lemma novelty_score_total b t k rs st : okheap st -> Forall (has st) (arch st) -> Forall (live st) rs -> rs <> [] -> type_ok t ->
  exists fl st1 st' f, filter_rules t rs st = (Ok fl, st) /\ fl <> [] /\ incl fl rs /\ ((forall q, t <> TMinimal q) -> fl = rs) /\
    mark (arch st) fl st = (Ok (arch st ++ fl), st1) /\ grown st st1 /\ okheap st1 /\ Forall (has st1) (arch st ++ fl) /\
    novelty_score b t k rs st = (Ok fl, st') /\ scored st1 st' f /\
    (forall x, In x fl -> f x = Some (scorev b t k st1 (arch st ++ fl) x)) /\ (forall x, ~ In x fl -> f x = None).
Proof.
  intros HO HAr HL HR Ht. destruct (filter_total st t rs (okheap_allok L D d st HO) HL HR Ht) as (fl & E1 & N1 & I1 & F1).
  assert (HLf : Forall (live st) fl) by (apply Forall_forall; intros i Hi; rewrite Forall_forall in HL; apply HL, I1; exact Hi).
  destruct (mark_total L D d HT HX fl (arch st) st HO HAr HLf) as (st1 & E2 & HO1 & G1 & H1).
  assert (Hfl : Forall (has st1) fl) by (apply Forall_app in H1; apply H1).
  assert (HLl : Forall (live st1) (arch st ++ fl)) by (revert H1; apply Forall_impl; intros i; apply has_live).
  destruct (scores_eq b t k (arch st ++ fl) fl st1 HO1 Ht Hfl HLl) as (st' & f & E3 & S3 & F3 & N3).
  exists fl, st1, st', f. split; [exact E1|]. split; [exact N1|]. split; [exact I1|]. split; [exact F1|]. split; [exact E2|]. split; [exact G1|]. split; [exact HO1|]. split; [exact H1|].
  split; [|split; [exact S3|split; [exact F3|exact N3]]].
  unfold novelty_score, bind at 1, get_archive. unfold bind at 1. rewrite E1. unfold bind at 1. rewrite E2. unfold bind. rewrite E3. reflexivity.
Qed.
Lemma scored_scof st st' f i : scored st st' f -> live st i -> scof st' i = match f i with Some s => Some s | None => scof st i end.
Proof. intros (_ & _ & H) HL. destruct (live_cell L st i HL) as (c & Hc). unfold scof. rewrite H, Hc. reflexivity. Qed.
Lemma novelty_is_iff st i s : novelty_is st i s <-> scof st i = Some s.
Proof.
  unfold novelty_is, scof. split; [intros (c & H & Hs); rewrite H; exact Hs|]. destruct (nth_error (cells st) i) as [c|]; [|discriminate]. intros H. exists c. auto.
Qed.
Lemma fitness_at_fitof st i f : fitness_at st i f -> fitof st i = f.
Proof. intros (c & H & (t & Ht & E)). unfold fitof. rewrite H. unfold rfit, fit_or_nan. rewrite Ht. exact E. Qed.
Lemma fitof_at st i : allok st -> live st i -> fitness_at st i (fitof st i).
Proof.
  intros HA HL. destruct (live_cell L st i HL) as (c & Hc). destruct (att_of L D d st i c HA Hc) as (t & Ht & _). exists c. split; [exact Hc|]. exists t. split; [exact Ht|].
  unfold fitof. rewrite Hc. unfold rfit, fit_or_nan. rewrite Ht. reflexivity.
Qed.
Lemma score_of_eq st i s : scof st i = Some s -> score_of L i st = (Ok s, st).
Proof.
  unfold scof, score_of, bind. destruct (nth_error (cells st) i) as [c|] eqn:E; [|discriminate]. intros H. rewrite (cell_of_eq L st i c E). unfold lift. rewrite H. reflexivity.
Qed.

(* ----- Pareto front ----- *)
Definition sval st (i : nat) : num := match scof st i with Some s => s | None => NaN end.
Definition fkey st (i : nat) : num * num := (sval st i, fitof st i).
Lemma with_key_eq {B} (key : nat -> St (nst L) B) (v : nat -> B) st rs : Forall (fun i => key i st = (Ok (v i), st)) rs -> with_key L key rs st = (Ok (map (fun i => (i, v i)) rs), st).
Proof. intros H. unfold with_key. apply mmap_pure. revert H. apply Forall_impl. intros i Hi. unfold bind. rewrite Hi. reflexivity. Qed.
Definition scored_rule st (i : nat) : Prop := live st i /\ exists s, scof st i = Some s.
Lemma pareto_keys st rs : allok st -> Forall (scored_rule st) rs ->
  pareto_front rs st = (match by_key (lex_lt nlt) (map (fun i => (i, fkey st i)) rs) with
                        | [] => Raise IndexError | p :: l => Ok (map fst (p :: front (snd (snd p)) l)) end, st).
Proof.
  intros HA HS. unfold pareto_front, bind at 1. rewrite (with_key_eq _ (fkey st)).
  - destruct (by_key _ _); reflexivity.
  - revert HS. apply Forall_impl. intros i (HL & s & Hs). unfold bind. rewrite (score_of_eq st i s Hs), (fitness_of_eq st i HA HL). unfold ret, fkey, sval. rewrite Hs. reflexivity.
Qed.
Lemma front_incl last l : incl (front last l) l.
Proof. revert last; induction l as [|p l IH]; intros last; cbn [front]; [apply incl_refl|]. destruct (nle last (snd (snd p))); [apply incl_cons; [left; reflexivity|]|]; apply incl_tl, IH. Qed.
Lemma by_key_perm {B} (lt : B -> B -> bool) (l : list (nat * B)) : Permutation (by_key lt l) l.
Proof. apply sort_desc_perm. Qed.
Lemma by_key_sorted st rs : Forall (fun i => is_nan (sval st i) = false /\ is_nan (fitof st i) = false) rs ->
  StronglySorted (fun a b : nat * (num * num) => lex_ge (fun x y => nle y x = true) (snd a) (snd b)) (by_key (lex_lt nlt) (map (fun i => (i, fkey st i)) rs)).
Proof.
  intros H. unfold by_key. apply (lex_sorted (fun p : nat * (num * num) => snd p) nlt (fun x y => nle y x = true) (fun x => is_nan x = false)).
  - intros a b Ha Hb Hlt. apply nlt_nle. exact Hlt.
  - intros a b Ha Hb Hlt. apply nlt_false_nle; auto.
  - intros a b c _ _ _ H1 H2. eapply nle_trans; eauto.
  - rewrite Forall_map. revert H. apply Forall_impl. intros i [H1 H2]. cbn. split; [exact H1|exact H2].
Qed.
Lemma lex_ge_fst a b : lex_ge (fun x y : num => nle y x = true) a b -> nle (fst b) (fst a) = true.
Proof. intros [H|[H _]]; [apply nlt_nle; exact H|apply neqb_nle; exact H]. Qed.
(* whatever is skipped is less fit than something kept before it *)
Lemma front_skips l : forall p, StronglySorted (fun a b : nat * (num * num) => lex_ge (fun x y => nle y x = true) (snd a) (snd b)) (p :: l) ->
  Forall (fun q => is_nan (snd (snd q)) = false) (p :: l) ->
  forall q, In q (p :: l) -> In q (p :: front (snd (snd p)) l) \/ exists z, In z (p :: l) /\ nle (fst (snd q)) (fst (snd z)) = true /\ nlt (snd (snd q)) (snd (snd z)) = true.
Proof.
  induction l as [|a l IH]; intros p HS HN q Hq.
  - left. exact Hq.
  - inversion HS as [|? ? HS' HF]; subst. inversion HN as [|? ? Np HN']; subst. cbn [front]. destruct Hq as [->|Hq]; [left; left; reflexivity|].
    destruct (nle (snd (snd p)) (snd (snd a))) eqn:E.
    + destruct (IH a HS' HN' q Hq) as [HI|(z & Hz & Z1 & Z2)]; [left; right; exact HI|right; exists z; split; [right; exact Hz|auto]].
    + assert (HSp : StronglySorted (fun a b : nat * (num * num) => lex_ge (fun x y => nle y x = true) (snd a) (snd b)) (p :: l)).
      { inversion HS' as [|? ? HS2 HF2]; subst. constructor; [exact HS2|]. inversion HF; assumption. }
      assert (HNp : Forall (fun q => is_nan (snd (snd q)) = false) (p :: l)) by (inversion HN'; subst; constructor; assumption).
      destruct Hq as [<-|Hq].
      * right. exists p. split; [left; reflexivity|]. inversion HF as [|? ? Hpa _]; subst. split; [apply lex_ge_fst; exact Hpa|]. inversion HN'; subst. apply nle_false_nlt; assumption.
      * destruct (IH p HSp HNp q (or_intror Hq)) as [[->|HI]|(z & Hz & Z1 & Z2)]; [left; left; reflexivity|left; right; exact HI|].
        right. exists z. split; [destruct Hz as [<-|Hz]; [left; reflexivity|right; right; exact Hz]|auto].
Qed.
(* whatever is kept is at least as fit as everything before it *)
Lemma front_keeps l : forall (p : nat * (num * num)) seen, is_nan (snd (snd p)) = false -> Forall (fun z : nat * (num * num) => nle (snd (snd z)) (snd (snd p)) = true) seen ->
  Forall (fun q : nat * (num * num) => is_nan (snd (snd q)) = false) l ->
  forall q, In q (front (snd (snd p)) l) -> exists before after, l = before ++ q :: after /\ Forall (fun z => nle (snd (snd z)) (snd (snd q)) = true) (seen ++ before).
Proof.
  induction l as [|a l IH]; intros p seen Np HS HN q Hq; cbn [front] in Hq; [destruct Hq|]. inversion HN as [|? ? Na HN']; subst.
  destruct (nle (snd (snd p)) (snd (snd a))) eqn:E.
  - assert (HS' : Forall (fun z : nat * (num * num) => nle (snd (snd z)) (snd (snd a)) = true) (seen ++ [a])).
    { apply Forall_app. split; [revert HS; apply Forall_impl; intros z Hz; eapply nle_trans; eauto|constructor; [apply nle_refl; exact Na|constructor]]. }
    destruct Hq as [<-|Hq].
    + exists [], l. split; [reflexivity|]. rewrite app_nil_r. apply Forall_app in HS'. apply HS'.
    + destruct (IH a (seen ++ [a]) Na HS' HN' q Hq) as (bf & af & -> & HF). exists (a :: bf), af. split; [reflexivity|]. rewrite <- app_assoc in HF. exact HF.
  - assert (HS' : Forall (fun z : nat * (num * num) => nle (snd (snd z)) (snd (snd p)) = true) (seen ++ [a])).
    { apply Forall_app. split; [exact HS|]. constructor; [|constructor]. apply nlt_nle. apply nle_false_nlt; assumption. }
    destruct (IH p (seen ++ [a]) Np HS' HN' q Hq) as (bf & af & -> & HF). exists (a :: bf), af. split; [reflexivity|]. rewrite <- app_assoc in HF. exact HF.
Qed.
End Score.
