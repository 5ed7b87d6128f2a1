(* Proofs about M_Matching. *)
From Coq Require Import Qminmax.
From Verif Require Import PyNum PyList PyMon L_Num L_List M_Matching S_Matching.

Lemma qmin_Qmin a b : qmin a b == Qmin a b.
Proof.
  unfold qmin. destruct (qle_spec a b) as [H|H].
  - rewrite Q.min_l by exact H. reflexivity.
  - rewrite Q.min_r by lra. reflexivity.
Qed.
Lemma qmax_Qmax a b : qmax a b == Qmax a b.
Proof.
  unfold qmax. destruct (qle_spec a b) as [H|H].
  - rewrite Q.max_r by exact H. reflexivity.
  - rewrite Q.max_l by lra. reflexivity.
Qed.
Lemma limits_lo t b : fst (limits t b) == lo t b.
Proof. destruct b, t; simpl; try reflexivity. apply qmin_Qmin. Qed.
Lemma limits_hi t b : snd (limits t b) == hi t b.
Proof. destruct b, t; simpl; try reflexivity. apply qmax_Qmax. Qed.

Lemma row_matches_iff t bs x :
  length bs = length x ->
  row_matches t bs x = true <-> Forall2 (fun b xi => lo t b <= xi /\ xi <= hi t b) bs x.
Proof.
  revert x; induction bs as [|b bs IH]; intros [|xi x] H; simpl in H; try lia.
  - simpl. split; auto.
  - cbn [row_matches]. rewrite !andb_true_iff, !qle_iff, limits_lo, limits_hi, IH by lia. split.
    + intros [H1 H2]. constructor; assumption.
    + intros H1; inversion H1; subst. split; assumption.
Qed.
Lemma row_matches_covers m x :
  length (bnd m) = length x -> row_matches (mt m) (bnd m) x = true <-> covers m x.
Proof. apply row_matches_iff. Qed.

Lemma bcast_same bs x : length bs = length x -> bcast_row bs x = Some (bs, x).
Proof. intros H. unfold bcast_row. rewrite H, Nat.eqb_refl. reflexivity. Qed.

Lemma match_call_ok m X :
  Forall (fun x => length x = length (bnd m)) X -> match_call m X = Ok (matches m X).
Proof.
  unfold match_call, matches. induction 1 as [|x X Hx HF IH]; simpl; auto.
  rewrite bcast_same by (symmetry; exact Hx). simpl. rewrite IH. reflexivity.
Qed.

Lemma matching_decides_membership m X :
  Forall (fun x => length x = length (bnd m)) X ->
  exists flags, match_call m X = Ok flags /\ Forall2 (fun x f => f = true <-> covers m x) X flags.
Proof.
  intros HF. exists (matches m X). split; [apply match_call_ok; exact HF|].
  unfold matches. induction HF as [|x X Hx HF IH]; simpl; constructor; auto.
  apply row_matches_covers; symmetry; exact Hx.
Qed.
Lemma match_call_app m X1 X2 :
  match_call m (X1 ++ X2) = (let? f1 := match_call m X1 in let? f2 := match_call m X2 in Ok (f1 ++ f2)).
Proof.
  unfold match_call. induction X1 as [|x X IH]; simpl.
  - match goal with |- context [rmap ?f X2] => destruct (rmap f X2) end; reflexivity.
  - set (r := match bcast_row (bnd m) x with Some _ => _ | None => _ end).
    destruct r as [b|e]; simpl; auto. rewrite IH.
    match goal with |- context [rmap ?f X] => destruct (rmap f X) end; simpl; auto.
    match goal with |- context [rmap ?f X2] => destruct (rmap f X2) end; reflexivity.
Qed.
Lemma match_call_dim_error m x X :
  length x <> length (bnd m) -> length x <> 1%nat -> length (bnd m) <> 1%nat ->
  match_call m (x :: X) = Raise ValueError.
Proof.
  intros H1 H2 H3. unfold match_call; simpl.
  assert (E : bcast_row (bnd m) x = None).
  { unfold bcast_row. destruct (Nat.eqb_spec (length (bnd m)) (length x)); [congruence|].
    destruct (bnd m) as [|b [|b' bs]], x as [|a [|a' x]]; simpl in *; try congruence; try lia. }
  rewrite E. reflexivity.
Qed.

(* ----- volume ----- *)
Lemma product_ext (l m : list Q) : Forall2 Qeq l m -> qprod l == product m.
Proof. induction 1 as [|a b l m H HF IH]; simpl; [lra|]. rewrite H, IH. reflexivity. Qed.
Lemma volume_ext m (f : Q * Q -> Q) :
  Forall (fun b => width (mt m) b == f b) (bnd m) -> volume m == product (map f (bnd m)).
Proof.
  intros H. unfold volume. apply product_ext. induction H; simpl; constructor; auto.
Qed.
Lemma volume_ordered m : mt m = OrderedBound -> volume m == product (lengths m).
Proof.
  intros E. unfold lengths. apply volume_ext. rewrite E. apply Forall_forall.
  intros [p q] _. simpl. reflexivity.
Qed.
Lemma volume_unordered m : mt m = UnorderedBound -> volume m == product (lengths m).
Proof.
  intros E. unfold lengths. apply volume_ext. rewrite E. apply Forall_forall.
  intros [p q] _. simpl. unfold qmax. destruct (qle_spec (q - p) (- (q - p))) as [H|H].
  - rewrite Q.min_r, Q.max_l by lra. lra.
  - rewrite Q.min_l, Q.max_r by lra. lra.
Qed.
Lemma volume_center m :
  mt m = CenterSpread -> Forall (fun b => 0 <= snd b) (bnd m) ->
  volume m == product (map (fun b => Qmax 0 (Qmin (hi CenterSpread b) 1 - Qmax (lo CenterSpread b) (-(1)))) (bnd m)).
Proof.
  intros E HP. apply volume_ext. rewrite E. rewrite Forall_forall in *.
  intros [c s] Hin. specialize (HP _ Hin). simpl in *.
  destruct (Q.max_spec (c - s) (-(1))) as [[? E1]|[? E1]]; rewrite E1;
  destruct (Q.min_spec (c + s) 1) as [[? E2]|[? E2]]; rewrite E2;
  match goal with |- context [Qmax 0 ?e] => destruct (Q.max_spec 0 e) as [[? E3]|[? E3]]; rewrite E3 end; qcases.
Qed.

(* ----- clip ----- *)
Lemma clip_mt m space : mt (clip m space) = mt m.
Proof. reflexivity. Qed.
Lemma clip_length m space : length space = length (bnd m) -> length (bnd (clip m space)) = length (bnd m).
Proof. intros H. simpl. rewrite map2_length; congruence. Qed.

Lemma clip_ordered_limits m space :
  mt m = OrderedBound -> length space = length (bnd m) -> proper_space space ->
  Forall2 (fun lh b => (fst lh <= fst b <= snd lh) /\ (fst lh <= snd b <= snd lh)) space (bnd (clip m space)).
Proof.
  destruct m as [t bs]; simpl. intros -> HL HP. revert bs HL.
  induction HP as [|lh space Hlh HP IH]; intros [|b bs] HL; simpl in *; try lia; constructor.
  - simpl. split; apply qclip_range; exact Hlh.
  - apply IH; lia.
Qed.
Lemma Forall2_clip_covers (t : mtype) space bs x :
  (forall lh b xi, fst lh <= xi <= snd lh -> lo t b <= xi /\ xi <= hi t b ->
      lo t (clip_pair t lh b) <= xi /\ xi <= hi t (clip_pair t lh b)) ->
  length space = length bs -> in_space space x ->
  Forall2 (fun b xi => lo t b <= xi /\ xi <= hi t b) bs x ->
  Forall2 (fun b xi => lo t b <= xi /\ xi <= hi t b) (map2 (clip_pair t) space bs) x.
Proof.
  intros Hp HL HS HC. revert space HL HS. induction HC as [|b xi bs x Hb HC IH]; intros [|lh space] HL HS; simpl in *; try lia.
  - constructor.
  - inversion HS; subst. constructor; [apply Hp; tauto|]. apply IH; [lia|assumption].
Qed.
Lemma clip_ordered_keeps m space x :
  mt m = OrderedBound -> length space = length (bnd m) -> in_space space x ->
  covers m x -> covers (clip m space) x.
Proof.
  destruct m as [t bs]; unfold covers; simpl. intros -> HL HS HC.
  apply Forall2_clip_covers; auto. intros [l h] [p q] xi H1 H2; simpl in *. qcases.
Qed.
(* no sample is gained when the box meets the space in every dimension *)
Lemma clip_ordered_gains_none m space x :
  mt m = OrderedBound -> proper_space space ->
  Forall2 (fun lh b => fst b <= snd lh /\ fst lh <= snd b) space (bnd m) ->
  in_space space x -> covers (clip m space) x -> covers m x.
Proof.
  destruct m as [t bs]; unfold covers; simpl. intros -> HP HM HS.
  revert x HS HP. induction HM as [|lh b space bs Hm HM IH]; intros x HS HP HC; simpl in *; inversion HC; subst; constructor;
    inversion HS; subst; inversion HP; subst.
  - destruct lh as [l h], b as [p q]; simpl in *. qcases.
  - apply IH; auto.
Qed.
Lemma clip_ordered_inside m space :
  mt m = OrderedBound -> length space = length (bnd m) -> proper_space space -> inside space (clip m space).
Proof.
  intros E HL HP. pose proof (clip_ordered_limits m space E HL HP) as H.
  unfold inside. rewrite clip_mt, E. eapply Forall2_impl; [|exact H].
  intros [l h] [p q]; simpl; tauto.
Qed.
Lemma clip_ordered_proper m space :
  mt m = OrderedBound -> proper m -> proper (clip m space).
Proof.
  destruct m as [t bs]; unfold proper; simpl. intros -> HP.
  revert space; induction HP as [|b bs Hb HP IH]; intros [|lh space]; simpl; constructor; auto.
  destruct b, lh; simpl in *. apply qclip_mono; exact Hb.
Qed.
Lemma clip_ordered_id m space :
  mt m = OrderedBound -> proper m -> inside space m -> same_bounds (bnd (clip m space)) (bnd m).
Proof.
  destruct m as [t bs]; unfold proper, inside; simpl. intros -> HP HI. revert HP.
  induction HI as [|lh b space bs Hb HI IH]; intros HP; simpl; constructor.
  - inversion HP; subst. destruct lh as [l h], b as [p q]; simpl in *. split; apply qclip_id; lra.
  - inversion HP; subst. apply IH; assumption.
Qed.
Lemma clip_center_keeps m space x :
  mt m = CenterSpread -> length space = length (bnd m) ->
  Forall (fun xi => -(1) <= xi <= 1) x -> covers m x -> covers (clip m space) x.
Proof.
  destruct m as [t bs]; unfold covers; simpl. intros -> HL HX HC.
  revert space HL HX. induction HC as [|b xi bs x Hb HC IH]; intros [|lh space] HL HX; simpl in *; try lia; constructor;
    inversion HX; subst.
  - destruct b as [c s]; simpl in *. qcases.
  - apply IH; [lia|assumption].
Qed.
Lemma clip_minpct_keeps m space x :
  mt m = MinPercentage -> length space = length (bnd m) ->
  Forall (fun xi => -(1) <= xi <= 1) x -> covers m x -> covers (clip m space) x.
Proof.
  destruct m as [t bs]; unfold covers; simpl. intros -> HL HX HC.
  revert space HL HX. induction HC as [|b xi bs x Hb HC IH]; intros [|lh space] HL HX; simpl in *; try lia; constructor;
    inversion HX; subst.
  - destruct b as [l p]; simpl in *. unfold qclip, qmin, qmax.
    destruct (qle_spec l (-(1))), (qle_spec l 1), (qle_spec (-(1)) 1); try lra;
    destruct (qle_spec p 0), (qle_spec p 1), (qle_spec 0 1); try lra; try nra.
  - apply IH; [lia|assumption].
Qed.
Lemma clip_minpct_inside m space :
  mt m = MinPercentage -> length space = length (bnd m) ->
  Forall (fun b => -(1) <= lo MinPercentage b /\ lo MinPercentage b <= hi MinPercentage b /\ hi MinPercentage b <= 1)
         (bnd (clip m space)).
Proof.
  destruct m as [t bs]; simpl. intros ->. revert space.
  induction bs as [|[l p] bs IH]; intros [|lh space] HL; simpl in *; try lia; constructor; auto.
  simpl. assert (H1 : -(1) <= qclip (-(1)) 1 l <= 1) by (apply qclip_range; lra).
  assert (H2 : 0 <= qclip 0 1 p <= 1) by (apply qclip_range; lra).
  revert H1 H2. generalize (qclip (-(1)) 1 l) (qclip 0 1 p). intros a b H1 H2. nra.
Qed.

(* ----- min_range ----- *)
Lemma min_range_off m mr : mr <= 0 -> min_range m mr = m.
Proof.
  intros H. unfold min_range, min_range_unordered.
  assert (E : qlt 0 mr = false) by (apply qlt_false; lra). rewrite E.
  destruct m as [[] bs]; reflexivity.
Qed.
Lemma min_range_mt m mr : mt (min_range m mr) = mt m.
Proof. unfold min_range. destruct m as [[] bs]; reflexivity. Qed.
Lemma add_rows_length idx a b bs : length (add_rows idx a b bs) = length bs.
Proof. apply mapi_length. Qed.
Lemma min_range_length m mr : length (bnd (min_range m mr)) = length (bnd m).
Proof.
  unfold min_range, min_range_unordered. destruct m as [[] bs]; simpl; destruct (qlt 0 mr); simpl;
    rewrite ?map_length, ?add_rows_length; reflexivity.
Qed.
Lemma min_range_ordered_bnd m mr :
  mt m = OrderedBound -> 0 < mr -> bnd (min_range m mr) = map (min_range_pair OrderedBound mr) (bnd m).
Proof.
  intros E H. unfold min_range. rewrite E. simpl.
  assert (E2 : qlt 0 mr = true) by (apply qlt_iff; exact H). rewrite E2. reflexivity.
Qed.
Lemma min_range_center_bnd m mr :
  mt m = CenterSpread -> 0 < mr -> bnd (min_range m mr) = map (min_range_pair CenterSpread mr) (bnd m).
Proof.
  intros E H. unfold min_range. rewrite E. simpl.
  assert (E2 : qlt 0 mr = true) by (apply qlt_iff; exact H). rewrite E2. reflexivity.
Qed.
Ltac halves mr := let H := fresh in assert (H : mr / 2 == mr * (1#2)) by (unfold Qdiv; reflexivity).
Lemma half_pos mr : 0 < mr -> 0 < mr / 2.
Proof. intros. halves mr. lra. Qed.
Lemma min_range_ordered_wide m mr : mt m = OrderedBound -> proper m -> 0 < mr -> wide mr (min_range m mr).
Proof.
  intros E HP H. unfold wide. rewrite min_range_ordered_bnd, min_range_mt, E by assumption.
  unfold proper in HP; rewrite E in HP. halves mr.
  induction HP as [|[p q] bs Hb HP IH]; simpl; constructor; auto.
  unfold min_range_pair; simpl. simpl in Hb. qcases; simpl; lra.
Qed.
Lemma min_range_ordered_proper m mr : mt m = OrderedBound -> proper m -> proper (min_range m mr).
Proof.
  intros E HP. destruct (Qlt_le_dec 0 mr) as [H|H]; [|rewrite min_range_off by exact H; exact HP].
  unfold proper. rewrite min_range_ordered_bnd, min_range_mt, E by assumption.
  unfold proper in HP; rewrite E in HP. halves mr.
  induction HP as [|[p q] bs Hb HP IH]; simpl; constructor; auto.
  unfold min_range_pair; simpl. simpl in Hb. qcases; simpl; lra.
Qed.
Lemma min_range_ordered_keeps m mr x : mt m = OrderedBound -> covers m x -> covers (min_range m mr) x.
Proof.
  intros E HC. destruct (Qlt_le_dec 0 mr) as [H|H]; [|rewrite min_range_off by exact H; exact HC].
  unfold covers in *. rewrite min_range_ordered_bnd, min_range_mt, E by assumption. rewrite E in HC. halves mr.
  induction HC as [|[p q] xi bs x Hb HC IH]; simpl; constructor; auto.
  unfold min_range_pair; simpl. simpl in Hb. qcases; simpl; lra.
Qed.
Lemma min_range_ordered_untouched m mr i b :
  mt m = OrderedBound -> nth_error (bnd m) i = Some b -> mr <= hi OrderedBound b - lo OrderedBound b ->
  nth_error (bnd (min_range m mr)) i = Some b.
Proof.
  intros E Hi Hw. destruct (Qlt_le_dec 0 mr) as [H|H]; [|rewrite min_range_off by exact H; exact Hi].
  rewrite min_range_ordered_bnd by assumption. rewrite nth_error_map, Hi. simpl. f_equal.
  destruct b as [p q]; unfold min_range_pair; simpl in *. qcases; auto.
Qed.
Lemma min_range_center_wide m mr :
  mt m = CenterSpread -> Forall (fun b => 0 <= snd b) (bnd m) -> 0 < mr ->
  Forall (fun b => mr <= hi CenterSpread b - lo CenterSpread b) (bnd (min_range m mr)).
Proof.
  intros E HP H. rewrite min_range_center_bnd by assumption. halves mr.
  induction HP as [|[c s] bs Hb HP IH]; simpl; constructor; auto.
  unfold min_range_pair; simpl. simpl in Hb. qcases; simpl; lra.
Qed.
Lemma min_range_center_keeps m mr x : mt m = CenterSpread -> covers m x -> covers (min_range m mr) x.
Proof.
  intros E HC. destruct (Qlt_le_dec 0 mr) as [H|H]; [|rewrite min_range_off by exact H; exact HC].
  unfold covers in *. rewrite min_range_center_bnd, min_range_mt, E by assumption. rewrite E in HC. halves mr.
  induction HC as [|[p q] xi bs x Hb HC IH]; simpl; constructor; auto.
  unfold min_range_pair; simpl. simpl in Hb.
  destruct (qlt _ mr); simpl; lra.
Qed.

(* ----- combined constraint ----- *)
Lemma combined_ordered m mr space :
  mt m = OrderedBound -> length space = length (bnd m) -> proper_space space ->
  let m' := constrain (CombinedConstraint mr space) m in
  inside space m' /\
  (proper m -> proper m') /\
  (forall x, in_space space x -> covers m x -> covers m' x).
Proof.
  intros E HL HP. simpl. repeat split.
  - apply clip_ordered_inside; auto. rewrite min_range_mt; exact E. rewrite min_range_length; exact HL.
  - intros H. apply clip_ordered_proper; [rewrite min_range_mt; exact E|]. apply min_range_ordered_proper; assumption.
  - intros x HS HC. apply clip_ordered_keeps; auto.
    + rewrite min_range_mt; exact E.
    + rewrite min_range_length; exact HL.
    + apply min_range_ordered_keeps; assumption.
Qed.
Lemma combined_ordered_width m mr space :
  mt m = OrderedBound -> proper m -> inside space m -> 0 < mr ->
  Forall2 (fun lh b => Qmin (mr / 2) (snd lh - fst lh) <= hi OrderedBound b - lo OrderedBound b)
          space (bnd (constrain (CombinedConstraint mr space) m)) /\
  (Forall2 (fun lh b => fst lh <= fst b - mr / 2 /\ snd b + mr / 2 <= snd lh) space (bnd m) ->
   wide mr (constrain (CombinedConstraint mr space) m)).
Proof.
  intros E HP HI H. simpl. unfold wide; rewrite clip_mt, min_range_mt, E. simpl.
  rewrite min_range_mt, E, min_range_ordered_bnd by assumption.
  unfold proper, inside in *. rewrite E in *. split.
  - induction HI as [|lh b space bs Hb HI IH]; simpl; constructor; inversion HP; subst; auto.
    destruct lh as [l h], b as [p q]; simpl in *. rewrite <- qmin_Qmin. halves mr.
    unfold min_range_pair; simpl. destruct (qlt_spec (q - p) mr); simpl; qcases.
  - intros HF. clear HI. induction HF as [|lh b space bs Hb HF IH]; simpl; constructor; inversion HP; subst; auto.
    destruct lh as [l h], b as [p q]; simpl in *. halves mr.
    unfold min_range_pair; simpl. destruct (qlt_spec (q - p) mr); simpl; qcases.
Qed.
