From Verif Require Import PyNum PyList PyMon L_Num L_List M_Matching S_Matching L_Matching M_Rule S_Rule.

Lemma qofnat_inject n : qofnat n == inject_Z (Z.of_nat n).
Proof. reflexivity. Qed.
Lemma mse_mean y p : mse y p == mean_squared y p.
Proof.
  unfold mse, mean_squared. rewrite qofnat_inject.
  assert (E : qsum (map2 (fun a b => (a - b) * (a - b)) y p) == sq_sum y p).
  { revert p; induction y as [|a y IH]; intros [|b p]; simpl; try reflexivity. rewrite IH. reflexivity. }
  rewrite E. reflexivity.
Qed.
Lemma floor_error_spec e : e <= floor_error e /\ (1#10000) <= floor_error e /\ (floor_error e == e \/ floor_error e == 1#10000).
Proof. unfold floor_error. qcases; repeat split; try lra; auto; try (left; lra); right; lra. Qed.

Lemma existsb_compress {A} (X : list A) ms :
  length ms = length X -> existsb (fun b => b) ms = false <-> compress X ms = [].
Proof.
  revert X; induction ms as [|b ms IH]; intros [|x X] H; simpl in *; try lia; [tauto|].
  destruct b; simpl; [split; intros; discriminate|]. apply IH; lia.
Qed.
Lemma same_flags_refl a : same_flags a a = Ok true.
Proof.
  unfold same_flags. rewrite Nat.eqb_refl. f_equal. induction a as [|b a IH]; simpl; auto.
  rewrite Bool.eqb_reflx; exact IH.
Qed.
Lemma same_flags_true a b : length a = length b -> same_flags a b = Ok true -> a = b.
Proof.
  unfold same_flags. intros HL. rewrite HL, Nat.eqb_refl. intros H. inversion H as [H0]; clear H.
  revert b HL H0; induction a as [|x a IH]; intros [|y b] HL H0; simpl in *; try lia; auto.
  apply andb_true_iff in H0. destruct H0 as [H1 H2]. apply Bool.eqb_prop in H1. f_equal; auto.
Qed.
Lemma same_flags_len a b : length a = length b -> exists t, same_flags a b = Ok t.
Proof. unfold same_flags. intros ->. rewrite Nat.eqb_refl. eauto. Qed.

Local Arguments trained : simpl never.
Section Rule.
Variable L : learner.
Implicit Types r : rule L.

Definition data_ok (m : matching) (X : matrix) (y : targets) : Prop :=
  Forall (fun x => length x = length (bnd m)) X /\ length y = length X.

Lemma matches_length m X : length (matches m X) = length X.
Proof. apply map_length. Qed.
Lemma matches_flags m X : Forall (fun x => length x = length (bnd m)) X -> flags_of m X (matches m X).
Proof.
  intros HF. unfold flags_of, matches. induction HF as [|x X Hx HF IH]; simpl; constructor; auto.
  apply row_matches_covers; symmetry; exact Hx.
Qed.

(* the result of training from scratch *)
Definition scratch (r : rule L) (X : matrix) (y : targets) : rule L :=
  let ms := matches (cond r) X in
  if negb (existsb (fun b => b) ms) then mkRule (cond r) (rmodel r) (Some (unmatched ms))
  else mkRule (cond r) (Some (fst (trained L (cond r) ms X y))) (Some (snd (trained L (cond r) ms X y))).

Lemma rule_fit_scratch r X y :
  data_ok (cond r) X y ->
  (match att r with None => True | Some a => length (match_set a) = length X /\ match_set a <> matches (cond r) X end) ->
  rule_fit L r X y = (Ok tt, scratch r X y).
Proof.
  intros [HF HL] HA. unfold rule_fit, scratch. rewrite match_call_ok by exact HF.
  destruct (negb (existsb (fun b => b) (matches (cond r) X))); auto.
  rewrite HL, Nat.eqb_refl. destruct (trained L (cond r) (matches (cond r) X) X y) as [mdl a] eqn:E. cbn [fst snd].
  destruct (att r) as [a0|]; [|reflexivity].
  destruct HA as [HA1 HA2]. destruct (same_flags_len (match_set a0) (matches (cond r) X)) as [t Ht].
  { rewrite matches_length; exact HA1. }
  rewrite Ht. destruct t; [|reflexivity]. apply same_flags_true in Ht; [contradiction|]. rewrite matches_length; exact HA1.
Qed.

Lemma scratch_truthful r X y : data_ok (cond r) X y -> truthful L (cond r) X y (scratch r X y).
Proof.
  intros [HF HL]. unfold scratch.
  pose proof (existsb_compress X (matches (cond r) X) (matches_length _ _)) as HC.
  destruct (existsb (fun b => b) (matches (cond r) X)) eqn:E; simpl.
  - constructor; [reflexivity|]. eexists; split; [reflexivity|]. simpl. split; [apply matches_flags; exact HF|].
    split.
    + intros H. apply HC in H. discriminate.
    + intros _. repeat split; auto. eexists. split; [reflexivity|]. split; [reflexivity|].
      destruct (floor_error_spec (mse (compress y (matches (cond r) X))
         (map (mpred L (train L (compress X (matches (cond r) X)) (compress y (matches (cond r) X)))) (compress X (matches (cond r) X))))) as (H1 & H2 & H3).
      rewrite mse_mean in H1 at 1. rewrite mse_mean in H3 at 2. auto.
  - constructor; [reflexivity|]. eexists; split; [reflexivity|]. simpl. split; [apply matches_flags; exact HF|].
    destruct HC as [HC _]. rewrite (HC eq_refl). split; [|intros H; exfalso; apply H; reflexivity]. repeat split; auto.
Qed.

Lemma fit_fresh_truthful m X y :
  data_ok m X y -> exists r, rule_fit L (fresh_rule L m) X y = (Ok tt, r) /\ truthful L m X y r.
Proof.
  intros H. exists (scratch (fresh_rule L m) X y). split.
  - apply (rule_fit_scratch (fresh_rule L m)); simpl; auto.
  - apply (scratch_truthful (fresh_rule L m)). exact H.
Qed.

Lemma fit_changed_truthful r X y a :
  data_ok (cond r) X y -> att r = Some a -> length (match_set a) = length X -> ~ flags_of (cond r) X (match_set a) ->
  exists r', rule_fit L r X y = (Ok tt, r') /\ truthful L (cond r) X y r'.
Proof.
  intros HD HA HL HN. exists (scratch r X y). split; [|apply scratch_truthful; exact HD].
  apply rule_fit_scratch; auto. rewrite HA. split; auto. intros E. apply HN. rewrite E. apply matches_flags. apply HD.
Qed.

Lemma rule_fit_idem r X y r1 :
  data_ok (cond r) X y -> rule_fit L r X y = (Ok tt, r1) -> rule_fit L r1 X y = (Ok tt, r1).
Proof.
  intros [HF HL] H. unfold rule_fit in *. rewrite match_call_ok in H by exact HF.
  set (ms := matches (cond r) X) in *.
  destruct (existsb (fun b => b) ms) eqn:E; cbn [negb] in H.
  - rewrite HL, Nat.eqb_refl in H. destruct (trained L (cond r) ms X y) as [mdl a] eqn:ET.
    assert (Hcase : r1 = mkRule (cond r) (Some mdl) (Some a) \/ exists a0, att r = Some a0 /\ same_flags (match_set a0) ms = Ok true /\
       r1 = mkRule (cond r) (rmodel r) (Some (mkAtts true (error a0) (fitness a0) (experience a0) (pred a0) (match_set a0)))).
    { destruct (att r) as [a0|]; [|left; inversion H; reflexivity].
      destruct (same_flags (match_set a0) ms) as [[]|] eqn:Es; inversion H; [right; eauto|left; reflexivity]. }
    destruct Hcase as [->|(a0 & Ha0 & Hs & ->)]; simpl; rewrite match_call_ok by exact HF; fold ms; rewrite E; simpl.
    + assert (Em : match_set a = ms) by (unfold trained in ET; inversion ET; reflexivity).
      rewrite Em, same_flags_refl. f_equal. f_equal. f_equal. unfold trained in ET. inversion ET; reflexivity.
    + rewrite Hs. reflexivity.
  - inversion H; subst. simpl. rewrite match_call_ok by exact HF. fold ms. rewrite E. simpl. reflexivity.
Qed.
Lemma fits_same_data m X y n :
  data_ok m X y ->
  exists r, rule_fits L (fresh_rule L m) (repeat (X, y) (S n)) = (Ok tt, r) /\ truthful L m X y r /\
            rule_fit L (fresh_rule L m) X y = (Ok tt, r).
Proof.
  intros H. destruct (fit_fresh_truthful m X y H) as (r & Hr & Ht). exists r. split; [|auto].
  cbn [repeat rule_fits]. rewrite Hr.
  assert (Hi : rule_fit L r X y = (Ok tt, r)).
  { apply (rule_fit_idem (fresh_rule L m)); auto. }
  induction n as [|n IH]; simpl; auto. rewrite Hi. exact IH.
Qed.

(* whatever the history, the condition is never changed by fit *)
Lemma rule_fit_cond r X y : cond (snd (rule_fit L r X y)) = cond r.
Proof.
  unfold rule_fit. destruct (match_call (cond r) X) as [ms|e]; auto.
  destruct (negb _); auto. destruct (trained L (cond r) ms X y) as [mdl a].
  destruct (att r) as [a0|]; [destruct (same_flags _ ms) as [[]|]|]; auto; destruct (Nat.eqb _ _); auto.
Qed.

(* invariant over every history of fits on data sets with the same number of samples: the rule never raises, and
   what it reports are the values of a fit from scratch on one of the data sets it has seen, with a match set
   equal to the current one *)
Lemma history_some_data m data n :
  data <> [] -> Forall (fun d => data_ok m (fst d) (snd d) /\ length (fst d) = n) data ->
  exists r X y Xl yl, rule_fits L (fresh_rule L m) data = (Ok tt, r) /\
    In (X, y) data /\ In (Xl, yl) data /\ last data (Xl, yl) = (Xl, yl) /\
    truthful L m X y r /\ exists a, att r = Some a /\ flags_of m Xl (match_set a).
Proof.
  intros HN HF.
  assert (G : forall data r seen,
    Forall (fun d => data_ok m (fst d) (snd d) /\ length (fst d) = n) data ->
    cond r = m ->
    (match att r with
     | None => data <> []
     | Some a => length (match_set a) = n /\ exists X y, In (X, y) seen /\ truthful L m X y r /\
                 data_ok m X y /\ length X = n
     end) ->
    (data = [] -> exists Xl yl a, In (Xl, yl) seen /\ last seen (Xl, yl) = (Xl, yl) /\ att r = Some a /\ flags_of m Xl (match_set a)) ->
    exists r' X y Xl yl, rule_fits L r data = (Ok tt, r') /\ In (X, y) (seen ++ data) /\ In (Xl, yl) (seen ++ data) /\
      last (seen ++ data) (Xl, yl) = (Xl, yl) /\ truthful L m X y r' /\ exists a, att r' = Some a /\ flags_of m Xl (match_set a)).
  { clear data HN HF. intros data; induction data as [|[X y] data IH]; intros r seen HF HC HA HE.
    - rewrite app_nil_r. destruct (HE eq_refl) as (Xl & yl & a & H1 & H2 & H3 & H4). rewrite H3 in HA.
      destruct HA as (_ & X & y & HI & HT & _). exists r, X, y, Xl, yl. split; [reflexivity|]. split; [exact HI|]. split; [exact H1|]. split; [exact H2|]. split; [exact HT|eauto].
    - destruct (Forall_inv HF) as [HD Hn]. pose proof (Forall_inv_tail HF) as HF'. simpl in HD, Hn. subst m.
      cbn [rule_fits].
      assert (HS : exists r1, rule_fit L r X y = (Ok tt, r1) /\ exists a, att r1 = Some a /\ match_set a = matches (cond r) X /\
         exists X' y', In (X', y') (seen ++ [(X, y)]) /\ truthful L (cond r) X' y' r1 /\ data_ok (cond r) X' y' /\ length X' = n).
      { assert (HSc : (match att r with None => True | Some a => length (match_set a) = length X /\ match_set a <> matches (cond r) X end) ->
          exists r1, rule_fit L r X y = (Ok tt, r1) /\ exists a, att r1 = Some a /\ match_set a = matches (cond r) X /\
           exists X' y', In (X', y') (seen ++ [(X, y)]) /\ truthful L (cond r) X' y' r1 /\ data_ok (cond r) X' y' /\ length X' = n).
        { intros Hcond. exists (scratch r X y). split; [apply rule_fit_scratch; auto|].
          unfold scratch at 1. destruct (negb (existsb (fun b => b) (matches (cond r) X))); simpl;
            (eexists; split; [reflexivity|]; split; [reflexivity|]);
            exists X, y; (split; [apply in_or_app; right; simpl; auto|]); (split; [apply scratch_truthful; auto|auto]). }
        destruct (att r) as [a|] eqn:Ea; [|apply HSc; exact I].
        destruct HA as (HAn & X' & y' & HI & HT & HD' & Hn').
        destruct (list_eq_dec Bool.bool_dec (match_set a) (matches (cond r) X)) as [Em|Em].
        - destruct HD as [HD1 HD2]. unfold rule_fit. rewrite match_call_ok by exact HD1.
          destruct (existsb (fun b => b) (matches (cond r) X)) eqn:Ex; simpl.
          + rewrite Ea, Em, same_flags_refl. eexists; split; [reflexivity|]. eexists; split; [reflexivity|].
            split; [reflexivity|]. exists X', y'. split; [apply in_or_app; auto|]. split; [|auto].
            destruct HT as [HT1 (a1 & Ha1 & HT2 & HT3 & HT4)]. rewrite Ea in Ha1. inversion Ha1; subst a1.
            constructor; [reflexivity|]. eexists; split; [reflexivity|]. simpl. rewrite <- Em. split; [exact HT2|].
            split; [|intros H; destruct (HT4 H) as (U1 & U2 & U3 & U4 & U5); repeat split; auto].
            intros H. exfalso. rewrite <- Em in Ex.
            assert (HLm : length (match_set a) = length X') by congruence.
            apply (existsb_compress X' (match_set a) HLm) in H. congruence.
          + eexists; split; [reflexivity|]. eexists; split; [reflexivity|]. split; [reflexivity|].
            exists X, y. split; [apply in_or_app; right; simpl; auto|]. split; [|repeat split; auto].
            pose proof (scratch_truthful r X y (conj HD1 HD2)) as HTs. unfold scratch in HTs. rewrite Ex in HTs. exact HTs.
        - apply HSc. split; [congruence|exact Em]. }
      destruct HS as (r1 & H1 & a & Ha & Hm & X' & y' & HI' & HT' & HD' & Hn').
      rewrite H1.
      assert (HC1 : cond r1 = cond r) by (rewrite <- (rule_fit_cond r X y), H1; reflexivity).
      specialize (IH r1 (seen ++ [(X, y)])). rewrite <- app_assoc in IH. simpl in IH. apply IH; auto.
      + rewrite Ha. split; [rewrite Hm, matches_length; exact Hn|]. eauto 8.
      + intros ->. exists X, y, a. split; [apply in_or_app; right; simpl; auto|]. split; [apply last_last|].
        split; [exact Ha|]. rewrite Hm. apply matches_flags. apply HD. }
  destruct (G data (fresh_rule L m) [] HF eq_refl) as (r & X & y & Xl & yl & H); simpl; auto.
  - intros E; contradiction.
  - exists r, X, y, Xl, yl. exact H.
Qed.
End Rule.
