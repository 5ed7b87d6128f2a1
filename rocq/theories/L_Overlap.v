(* The complete graph of the ants: marks and overlap. *)
From Coq Require Import Lia Lqa Qminmax.
From Verif Require Import PyNum PyList PyMon PyRng PyStat L_Num L_List M_Matching S_Matching L_Matching M_Rule M_Mixing M_Solution M_Aco S_Aco L_Aco L_AcoProps S_Overlap.

(* ----- marks ----- *)
Lemma positions_in g i : In i (positions g) <-> nth_error g i = Some true.
Proof.
  unfold positions. rewrite filter_In, in_seq. split.
  - intros [[_ H] E]. cbn in H. rewrite (nth_error_nth' g false H), E. reflexivity.
  - intros H. assert (HL : (i < length g)%nat) by (apply nth_error_Some; congruence).
    split; [lia|]. apply nth_error_nth with (d := false) in H. exact H.
Qed.
Lemma positions_nodup g : NoDup (positions g).
Proof. apply NoDup_filter, seq_NoDup. Qed.
Lemma negb_in g i : In i (positions (map negb g)) <-> nth_error g i = Some false.
Proof.
  rewrite positions_in, nth_error_map. destruct (nth_error g i) as [[|]|]; cbn; split; congruence.
Qed.
Lemma prod_nodup {T U} (l : list T) (m : list U) : NoDup l -> NoDup m -> NoDup (list_prod l m).
Proof.
  intros H1 H2. induction H1 as [|x l HN H1 IH]; cbn [list_prod]; [constructor|].
  assert (HM : NoDup (map (fun y => (x, y)) m)).
  { clear - H2. induction H2 as [|y m HN H2 IH]; cbn; constructor; auto. intros HI. apply in_map_iff in HI. destruct HI as (y' & HE & HI). congruence. }
  revert HM. assert (HD : forall z, In z (map (fun y => (x, y)) m) -> ~ In z (list_prod l m)).
  { intros z Hz Hz'. apply in_map_iff in Hz. destruct Hz as (y & <- & _). apply in_prod_iff in Hz'. tauto. }
  revert HD. generalize (map (fun y => (x, y)) m) as k. induction k as [|z k IHk]; cbn [app]; intros HD HM; auto.
  inversion HM; subst. constructor; [|apply IHk; auto; intros w Hw; apply HD; right; auto].
  intros HI. apply in_app_iff in HI. destruct HI as [HI|HI]; [tauto|]. exact (HD z (or_introl eq_refl) HI).
Qed.
Definition marked (select : bool) (d : num) (t : num * num) : num * num :=
  if select then (fst t, nadd (snd t) d) else (nadd (fst t) d, snd t).
Lemma cell_bump select d p a b i j t : cell p i j = Some t ->
  cell (bump select d p (a, b)) i j = Some (if Nat.eqb i a && Nat.eqb j b then marked select d t else t).
Proof.
  unfold cell, bump. rewrite mapi_nth. cbn [fst snd]. destruct (nth_error p i) as [r|] eqn:Er; [|discriminate]. intros H. cbn [option_map].
  destruct (Nat.eqb i a) eqn:Ea; cbn [andb]; [|exact H]. rewrite mapi_nth, H. cbn [option_map]. destruct (Nat.eqb j b); reflexivity.
Qed.
Lemma bumps_miss select d l i j t : ~ In (i, j) l -> forall p, cell p i j = Some t -> cell (bumps select d l p) i j = Some t.
Proof.
  unfold bumps. induction l as [|[a b] l IH]; cbn [fold_left In]; intros HN p H; auto.
  apply IH; [tauto|]. rewrite (cell_bump select d p a b i j t H).
  destruct (Nat.eqb_spec i a), (Nat.eqb_spec j b); cbn [andb]; auto. subst. destruct HN. auto.
Qed.
Lemma bumps_hit select d l i j t : NoDup l -> In (i, j) l -> forall p, cell p i j = Some t -> cell (bumps select d l p) i j = Some (marked select d t).
Proof.
  intros HD. induction HD as [|[a b] l HN HD IH]; cbn [In]; intros HI p H; [tauto|]. unfold bumps. cbn [fold_left].
  pose proof (cell_bump select d p a b i j t H) as HC. destruct HI as [HI|HI].
  - inversion HI; subst. rewrite !Nat.eqb_refl in HC. cbn [andb] in HC. apply bumps_miss; auto.
  - apply IH; auto. rewrite HC. destruct (Nat.eqb_spec i a), (Nat.eqb_spec j b); cbn [andb]; auto. subst. tauto.
Qed.
Definition crossed (d : num) (l : list (nat * nat)) (p : cmatrix) : cmatrix :=
  fold_left (fun q ij => bump true d (bump false d q ij) (snd ij, fst ij)) l p.
Lemma crossed_miss d l i j t : ~ In (i, j) l -> ~ In (j, i) l -> forall p, cell p i j = Some t -> cell (crossed d l p) i j = Some t.
Proof.
  unfold crossed. induction l as [|[a b] l IH]; cbn [fold_left In]; intros H1 H2 p H; auto.
  apply IH; try tauto. cbn [fst snd].
  rewrite (cell_bump true d _ b a i j t).
  - destruct (Nat.eqb_spec i b), (Nat.eqb_spec j a); cbn [andb]; auto. subst. destruct H2. auto.
  - rewrite (cell_bump false d p a b i j t H). destruct (Nat.eqb_spec i a), (Nat.eqb_spec j b); cbn [andb]; auto. subst. destruct H1. auto.
Qed.
Lemma crossed_hit d l i j t : NoDup l -> In (i, j) l -> ~ In (j, i) l -> forall p, cell p i j = Some t -> cell (crossed d l p) i j = Some (marked false d t).
Proof.
  intros HD. induction HD as [|[a b] l HN HD IH]; cbn [In]; intros HI HI' p H; [tauto|]. unfold crossed. cbn [fold_left fst snd].
  assert (HC : cell (bump true d (bump false d p (a, b)) (b, a)) i j = Some (if Nat.eqb i a && Nat.eqb j b then marked false d t else t)).
  { rewrite (cell_bump true d _ b a i j _ (cell_bump false d p a b i j t H)).
    destruct (Nat.eqb_spec i b), (Nat.eqb_spec j a); cbn [andb]; auto. subst. destruct HI'. auto. }
  destruct HI as [HI|HI].
  - inversion HI; subst. rewrite !Nat.eqb_refl in HC. cbn [andb] in HC. apply crossed_miss; auto.
  - apply IH; auto. rewrite HC. destruct (Nat.eqb_spec i a), (Nat.eqb_spec j b); cbn [andb]; auto. subst. tauto.
Qed.
Lemma crossed_back d l i j t : NoDup l -> In (j, i) l -> ~ In (i, j) l -> forall p, cell p i j = Some t -> cell (crossed d l p) i j = Some (marked true d t).
Proof.
  intros HD. induction HD as [|[a b] l HN HD IH]; cbn [In]; intros HI HI' p H; [tauto|]. unfold crossed. cbn [fold_left fst snd].
  assert (HC : cell (bump true d (bump false d p (a, b)) (b, a)) i j = Some (if Nat.eqb i b && Nat.eqb j a then marked true d t else t)).
  { rewrite (cell_bump true d _ b a i j t); auto.
    rewrite (cell_bump false d p a b i j t H). destruct (Nat.eqb_spec i a), (Nat.eqb_spec j b); cbn [andb]; auto. subst. destruct HI'. auto. }
  destruct HI as [HI|HI].
  - inversion HI; subst. rewrite !Nat.eqb_refl in HC. cbn [andb] in HC. apply crossed_miss; auto.
  - apply IH; auto. rewrite HC. destruct (Nat.eqb_spec i b), (Nat.eqb_spec j a); cbn [andb]; auto. subst. tauto.
Qed.
Lemma diagonal_in l i j : In (i, j) (diagonal l) <-> i = j /\ In i l.
Proof.
  unfold diagonal. rewrite in_map_iff. split; [intros (k & HE & H); inversion HE; subst; auto|intros [-> H]; eauto].
Qed.
Lemma diagonal_nodup l : NoDup l -> NoDup (diagonal l).
Proof.
  unfold diagonal. induction 1 as [|x l HN HD IH]; cbn; constructor; auto. intros HI. apply in_map_iff in HI. destruct HI as (y & HE & HI). congruence.
Qed.
Lemma singles (l : list nat) i j : (length l <= 1)%nat -> In i l -> In j l -> i = j.
Proof. destruct l as [|x [|y l]]; cbn; intros; try lia; intuition congruence. Qed.
(* the three groups of entries *)
Lemma update_cells p g d i j t : cell p i j = Some t -> (i < length g)%nat -> (j < length g)%nat ->
  (nth_error g j = Some true -> cell (com_update p g d) i j = Some (fst t, nadd (snd t) d)) /\
  (nth_error g j = Some false -> nth_error g i = Some true \/ i = j -> cell (com_update p g d) i j = Some (nadd (fst t) d, snd t)) /\
  (nth_error g j = Some false -> nth_error g i = Some false -> i <> j -> cell (com_update p g d) i j = Some t).
Proof.
  intros HC Hi Hj. unfold com_update. set (sel := positions g). set (des := positions (map negb g)).
  set (pairs := filter _ (list_prod sel sel)).
  assert (Nsel : NoDup sel) by apply positions_nodup. assert (Ndes : NoDup des) by apply positions_nodup.
  assert (Npairs : NoDup pairs) by (apply NoDup_filter, prod_nodup; auto).
  assert (Ncross : NoDup (list_prod sel des)) by (apply prod_nodup; auto).
  pose proof (diagonal_nodup sel Nsel) as Nds. pose proof (diagonal_nodup des Ndes) as Ndd.
  assert (Ipairs : In (i, j) pairs <-> In i sel /\ In j sel /\ i <> j).
  { unfold pairs. rewrite filter_In, in_prod_iff. cbn [fst snd]. destruct (Nat.eqb_spec i j); cbn; intuition congruence. }
  pose proof (in_prod_iff sel des i j) as Icross. pose proof (in_prod_iff sel des j i) as Iback.
  pose proof (diagonal_in sel i j) as Ids. pose proof (diagonal_in des i j) as Idd.
  pose proof (positions_in g i) as Si. pose proof (positions_in g j) as Sj. pose proof (negb_in g i) as Di. pose proof (negb_in g j) as Dj.
  fold sel in Si, Sj. fold des in Di, Dj. change (fold_left _ (list_prod sel des) ?q) with (crossed d (list_prod sel des) q).
  (* the first phase, whether or not it is skipped *)
  set (p1 := if Nat.ltb 1 (length sel) then bumps true d pairs p else p).
  assert (H1 : ~ In (i, j) pairs -> cell p1 i j = Some t) by (intros H; unfold p1; destruct (Nat.ltb _ _); auto; apply bumps_miss; auto).
  assert (H1' : In (i, j) pairs -> cell p1 i j = Some (marked true d t)).
  { intros H. unfold p1. destruct (Nat.ltb_spec 1 (length sel)); [apply bumps_hit; auto|]. apply Ipairs in H. destruct H as (Ha & Hb & Hne). destruct Hne. apply (singles sel); auto. }
  split; [|split].
  - intros Ej. assert (Fd : ~ In j des) by (rewrite Dj; congruence). apply Sj in Ej.
    destruct (nth_error g i) as [[|]|] eqn:Ei; [| |apply nth_error_None in Ei; lia].
    + assert (Ii : In i sel) by (apply Si; auto). assert (Fi : ~ In i des) by (rewrite Di; congruence).
      destruct (Nat.eq_dec i j) as [->|Hne].
      * apply crossed_miss; [rewrite Icross; tauto|rewrite Icross; tauto|]. apply bumps_miss; [rewrite Idd; tauto|]. apply (bumps_hit true); auto; [rewrite Ids; auto|]. apply H1. rewrite Ipairs; tauto.
      * apply crossed_miss; [rewrite Icross; tauto|rewrite Iback; tauto|]. apply bumps_miss; [rewrite Idd; tauto|]. apply bumps_miss; [rewrite Ids; tauto|]. apply H1'. rewrite Ipairs; auto.
    + assert (Ii : In i des) by (apply Di; auto). assert (Fi : ~ In i sel) by (rewrite Si; congruence).
      apply (crossed_back d); auto; [apply Iback; auto|rewrite Icross; tauto|]. apply bumps_miss; [rewrite Idd; intros [-> _]; tauto|]. apply bumps_miss; [rewrite Ids; tauto|]. apply H1. rewrite Ipairs; tauto.
  - intros Ej HO. assert (Fs : ~ In j sel) by (rewrite Sj; congruence). apply Dj in Ej.
    destruct (Nat.eq_dec i j) as [->|Hne].
    + apply crossed_miss; [rewrite Icross; tauto|rewrite Icross; tauto|]. apply (bumps_hit false); auto; [rewrite Idd; auto|]. apply bumps_miss; [rewrite Ids; tauto|]. apply H1. rewrite Ipairs; tauto.
    + destruct HO as [Ei|]; [|congruence]. assert (Fd : ~ In i des) by (rewrite Di; congruence). apply Si in Ei.
      apply (crossed_hit d); auto; [apply Icross; auto|rewrite Iback; tauto|]. apply bumps_miss; [rewrite Idd; tauto|]. apply bumps_miss; [rewrite Ids; tauto|]. apply H1. rewrite Ipairs; tauto.
  - intros Ej Ei Hne. assert (Fs : ~ In j sel) by (rewrite Sj; congruence). assert (Fi : ~ In i sel) by (rewrite Si; congruence).
    apply crossed_miss; [rewrite Icross; tauto|rewrite Iback; tauto|]. apply bumps_miss; [rewrite Idd; tauto|]. apply bumps_miss; [rewrite Ids; tauto|]. apply H1. rewrite Ipairs; tauto.
Qed.
