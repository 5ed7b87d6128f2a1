From Coq Require Import Permutation.
From Verif Require Import PyNum PyList PyMon PyRng L_Num L_List L_Rng M_Matching S_Matching L_Matching M_Rule S_Rule L_Rule
  M_Mixing S_Mixing.

(* capping *)
Lemma cap_limited lower upper x : limited lower upper x (cap lower upper x).
Proof.
  unfold cap. destruct lower as [l|], upper as [u|]; unfold qmax, qmin.
  - destruct (qle_spec x l) as [H1|H1].
    + destruct (qle_spec l u) as [H2|H2].
      * destruct (Qlt_le_dec x l) as [H3|H3].
        { apply lim_below with l; auto; [|reflexivity]. intros u' E. injection E as <-. exact H2. }
        { apply lim_within; [intros l' E|intros u' E|]; try (injection E as <-); lra. }
      * apply lim_crossed with l u; auto; lra.
    + destruct (qle_spec x u) as [H2|H2].
      * apply lim_within; [intros l' E|intros u' E|reflexivity]; injection E as <-; lra.
      * apply lim_above with u; auto; lra.
  - destruct (qle_spec x l) as [H1|H1].
    + destruct (Qlt_le_dec x l) as [H3|H3]; [apply lim_below with l; auto; [discriminate|reflexivity]|].
      apply lim_within; [intros l' E; injection E as <-; lra|discriminate|lra].
    + apply lim_within; [intros l' E; injection E as <-; lra|discriminate|reflexivity].
  - destruct (qle_spec x u) as [H2|H2]; [|apply lim_above with u; auto; lra].
    apply lim_within; [discriminate|intros u' E; injection E as <-; lra|reflexivity].
  - apply lim_within; try discriminate. reflexivity.
Qed.
Lemma calc_exp_counted c dim x : counted c dim x (calc_exp c dim x).
Proof. destruct c as [|l u|l u]; cbn [counted calc_exp]; [reflexivity|apply cap_limited|apply cap_limited]. Qed.

Lemma fill_compress {A} (f : A -> bool) (p : A -> Q) X :
  fill (map f X) (map p (compress X (map f X))) = map (fun x => if f x then p x else 0) X.
Proof. induction X as [|x X IH]; simpl; auto. destruct (f x); simpl; rewrite IH; reflexivity. Qed.
Lemma count_true_compress {A} (X : list A) g : length g = length X -> count_true g = length (compress X g).
Proof.
  revert X; induction g as [|b g IH]; intros [|x X] H; simpl in *; try lia. destruct b; simpl; rewrite (IH X); lia.
Qed.
Lemma scatter_compress {A} (f : A -> bool) (p : A -> Q) X :
  scatter (length X) (map f X) (map p (compress X (map f X))) = Ok (map (fun x => if f x then p x else 0) X).
Proof.
  unfold scatter. rewrite map_length, Nat.eqb_refl. simpl.
  rewrite map_length, (count_true_compress X) by apply map_length. rewrite Nat.eqb_refl, fill_compress. reflexivity.
Qed.
Lemma fill_repeat {A} (f : A -> bool) (t : Q) X :
  fill (map f X) (repeat t (count_true (map f X))) = map (fun x => if f x then t else 0) X.
Proof. induction X as [|x X IH]; simpl; auto. destruct (f x); simpl; rewrite IH; reflexivity. Qed.
Lemma scatter_const {A} (f : A -> bool) (t : Q) X :
  scatter (length X) (map f X) [t] = Ok (map (fun x => if f x then t else 0) X).
Proof.
  unfold scatter. rewrite map_length, Nat.eqb_refl. cbn [negb length].
  destruct (Nat.eqb_spec 1 (count_true (map f X))) as [E|E]; rewrite <- fill_repeat; [rewrite <- E|]; reflexivity.
Qed.
Lemma map2_map {A B C D} (h : B -> C -> D) (f : A -> B) (g : A -> C) X :
  map2 h (map f X) (map g X) = map (fun x => h (f x) (g x)) X.
Proof. induction X as [|x X IH]; simpl; auto. rewrite IH; reflexivity. Qed.
Lemma vsum_map {A B} (f : B -> A -> Q) (X : list A) rs :
  vsum (length X) (map (fun r => map (f r) X) rs) = map (fun x => qsum (map (fun r => f r x) rs)) X.
Proof.
  unfold vsum. induction rs as [|r rs IH]; simpl.
  - induction X as [|x X IH]; simpl; auto. rewrite IH; reflexivity.
  - rewrite IH, map2_map. reflexivity.
Qed.
Lemma rmap_ok {A B} (f : A -> res B) (g : A -> B) l :
  (forall x, In x l -> f x = Ok (g x)) -> rmap f l = Ok (map g l).
Proof.
  induction l as [|x l IH]; intros H; simpl; auto. rewrite H by (simpl; auto). simpl.
  rewrite IH by (intros; apply H; simpl; auto). reflexivity.
Qed.
Lemma combine_map {A B C} (f : A -> B) (g : A -> C) l : combine (map f l) (map g l) = map (fun x => (f x, g x)) l.
Proof. induction l as [|x l IH]; simpl; auto. rewrite IH; reflexivity. Qed.

Section Mixing.
Variable L : learner.
Implicit Types r : rule L.

(* total versions of the model's helpers *)
Definition hits r (x : row) : bool := row_matches (mt (cond r)) (bnd (cond r)) x.
Definition guess r (x : row) : Q := match rmodel r with Some m => mpred L m x | None => 0 end.
Definition tauq (mx : mixing) (dim : nat) r : Q :=
  match att r with
  | Some a => match error a with
              | Fin e => 1 / e * (calc_exp (mexp mx) dim (experience a) * mweight mx)
              | _ => 0 * (calc_exp (mexp mx) dim (experience a) * mweight mx)
              end
  | None => 0
  end.
Definition num_at mx dim rs x := qsum (map (fun r => (if hits r x then guess r x else 0) * tauq mx dim r) rs).
Definition den_at mx dim rs x := qsum (map (fun r => if hits r x then tauq mx dim r else 0) rs).
Definition predict_one mx dim rs x : Q :=
  num_at mx dim rs x / (if qeq (den_at mx dim rs x) 0 then 1 else den_at mx dim rs x).

Lemma tau_measured mx dim r : has_error L r -> tau L mx dim r = Ok (tauq mx dim r).
Proof.
  intros (a & Ha & He). unfold tau, get_att, tauq. rewrite Ha. simpl. destruct He as [He | (e & He & Hp)]; rewrite He; [reflexivity|].
  assert (E : qeq e 0 = false).
  { destruct (qeq_spec e 0) as [H|H]; auto. exfalso. lra. }
  rewrite E. reflexivity.
Qed.
Lemma tau_ready mx dim d r : ready L d r -> tau L mx dim r = Ok (tauq mx dim r).
Proof. intros (_ & H & _). apply tau_measured; exact H. Qed.
Lemma local_pred_fresh X r :
  ready L (length (bnd (cond r))) r -> Forall (fun x => length x = length (bnd (cond r))) X ->
  local_pred L X false r = Ok (map (hits r) X, map (fun x => if hits r x then guess r x else 0) X).
Proof.
  intros (_ & _ & mdl & Hm) HF. unfold local_pred. rewrite match_call_ok by exact HF.
  change (matches (cond r) X) with (map (hits r) X). simpl.
  unfold guess. destruct (existsb (fun b => b) (map (hits r) X)) eqn:E.
  - unfold rule_predict. rewrite Hm. simpl. rewrite scatter_compress. reflexivity.
  - f_equal. f_equal. clear - E. induction X as [|x X IH]; simpl in *; auto.
    destruct (hits r x); [discriminate|]. simpl in E. rewrite IH; auto.
Qed.
Lemma local_pred_silent X r : Forall (fun x => length x = length (bnd (cond r))) X -> (forall x, In x X -> hits r x = false) ->
  local_pred L X false r = Ok (map (hits r) X, map (fun x => if hits r x then guess r x else 0) X).
Proof.
  intros HF HH. unfold local_pred. rewrite match_call_ok by exact HF.
  change (matches (cond r) X) with (map (hits r) X). simpl.
  assert (E : existsb (fun b => b) (map (hits r) X) = false).
  { clear HF. induction X as [|x X IH]; simpl; auto. rewrite HH by (simpl; auto). apply IH. intros; apply HH; simpl; auto. }
  rewrite E. f_equal. f_equal. clear E HF. induction X as [|x X IH]; simpl in *; auto. rewrite HH by auto. f_equal. apply IH. auto.
Qed.
Lemma local_pred_untrained X r x : Forall (fun x => length x = length (bnd (cond r))) X -> rmodel r = None -> In x X -> hits r x = true ->
  local_pred L X false r = Raise NotFittedError.
Proof.
  intros HF HM HI HH. unfold local_pred. rewrite match_call_ok by exact HF.
  change (matches (cond r) X) with (map (hits r) X). simpl.
  assert (E : existsb (fun b => b) (map (hits r) X) = true).
  { apply existsb_exists. exists true. split; auto. rewrite <- HH. apply in_map. exact HI. }
  rewrite E. unfold rule_predict. rewrite HM. reflexivity.
Qed.

Lemma mix_map mx X rs cache :
  (forall r, In r rs -> has_error L r) ->
  (forall r, In r rs -> local_pred L X cache r = Ok (map (hits r) X, map (fun x => if hits r x then guess r x else 0) X)) ->
  mix L mx X rs cache = Ok (map (predict_one mx (row_len X) rs) X).
Proof.
  intros HR HP. unfold mix.
  rewrite (rmap_ok _ (fun r => (map (hits r) X, map (fun x => if hits r x then guess r x else 0) X))) by exact HP.
  simpl.
  rewrite (rmap_ok _ (tauq mx (row_len X))).
  2: { intros r Hr. apply tau_measured, HR, Hr. }
  simpl. rewrite map_map, combine_map. simpl.
  assert (E1 : rmap (fun lt : list bool * Q => scatter (length X) (fst lt) [snd lt])
      (map (fun x => (map (hits x) X, tauq mx (row_len X) x)) rs) =
      Ok (map (fun r => map (fun x => if hits r x then tauq mx (row_len X) r else 0) X) rs)).
  { clear. induction rs as [|r rs IH]; simpl; auto. rewrite scatter_const. simpl. rewrite IH. reflexivity. }
  rewrite E1. simpl. rewrite vsum_map, map_map.
  rewrite map2_map. 
  assert (E2 : map (fun x => map (fun v => v * tauq mx (row_len X) x) (map (fun x0 => if hits x x0 then guess x x0 else 0) X)) rs
     = map (fun r => map (fun x => (if hits r x then guess r x else 0) * tauq mx (row_len X) r) X) rs).
  { apply map_ext. intros r. rewrite map_map. reflexivity. }
  simpl in *. rewrite E2, vsum_map, map2_map. reflexivity.
Qed.

(* ----- fresh prediction ----- *)
Lemma row_len_all X dim : Forall (fun x => length x = dim) X -> X <> [] -> row_len X = dim.
Proof. intros H HN. destruct X; [congruence|]. inversion H; subst. reflexivity. Qed.
Lemma mix_fresh mx X rs dim :
  Forall (fun x => length x = dim) X -> Forall (ready L dim) rs ->
  mix L mx X rs false = Ok (map (predict_one mx dim rs) X).
Proof.
  intros HX HR. rewrite Forall_forall in HR.
  rewrite mix_map.
  - destruct X as [|x X]; auto. rewrite (row_len_all _ dim); auto. discriminate.
  - intros r Hr. apply (HR r Hr).
  - intros r Hr. pose proof (HR r Hr) as Hrd. destruct Hrd as [Hd Hrest].
    apply local_pred_fresh; [split; auto|]. rewrite Hd. exact HX.
Qed.

(* ----- the value ----- *)
Lemma hits_covers r x : length (bnd (cond r)) = length x -> hits r x = true <-> covers (cond r) x.
Proof. intros H. apply row_matches_covers; exact H. Qed.

Lemma ready_vote mx dim r x :
  ready L dim r -> length x = dim -> has_weight L mx dim r (tauq mx dim r) /\ says L r x (guess r x).
Proof.
  intros [Hd ((a & Ha & He) & mdl & Hm)] Hx. split.
  - exists a, (calc_exp (mexp mx) dim (experience a)). split; [exact Ha|]. split; [apply calc_exp_counted|]. unfold tauq. rewrite Ha.
    destruct He as [He | (e & He & Hp)].
    + right. split; [exact He|]. rewrite He. ring.
    + left. exists e. split; [exact He|]. rewrite He. field. intros H0. rewrite H0 in Hp. revert Hp. apply Qlt_irrefl.
  - exists mdl. unfold guess. rewrite Hm. auto.
Qed.
Lemma votes_exist mx dim x rs :
  length x = dim -> Forall (fun r => ready L dim r \/ (length (bnd (cond r)) = dim /\ hits r x = false)) rs ->
  exists vs, votes L mx dim x rs vs /\ num_at mx dim rs x == weighted vs /\ den_at mx dim rs x == total vs /\
    (vs = [] -> num_at mx dim rs x == 0).
Proof.
  intros Hx HR. induction HR as [|r rs Hr HR IH].
  - exists []. split; [constructor|]. unfold num_at, den_at; simpl. repeat split; try reflexivity.
  - destruct IH as (vs & HV & HN & HD & H0).
    assert (Hd : length (bnd (cond r)) = dim) by (destruct Hr as [Hr|Hr]; apply Hr).
    destruct (hits r x) eqn:E.
    + destruct Hr as [Hr | [_ Hr]]; [|discriminate].
      destruct (ready_vote mx dim r x Hr Hx) as [HW HS].
      exists ((tauq mx dim r, guess r x) :: vs). split.
      * constructor; auto. apply hits_covers; auto. congruence.
      * unfold num_at, den_at in *; simpl. rewrite E. rewrite HN, HD. repeat split; try reflexivity; [lra|]. discriminate.
    + exists vs. split.
      * apply votes_miss; auto. rewrite <- hits_covers; [congruence|]. congruence.
      * unfold num_at, den_at in *; simpl. rewrite E. rewrite <- HN, <- HD. repeat split; try lra.
        intros Hv. specialize (H0 Hv). rewrite H0. lra.
Qed.
Lemma predict_one_mixed_gen mx dim rs x :
  length x = dim -> Forall (fun r => ready L dim r \/ (length (bnd (cond r)) = dim /\ hits r x = false)) rs -> mixed L mx dim rs x (predict_one mx dim rs x).
Proof.
  intros Hx HR. destruct (votes_exist mx dim x rs Hx HR) as (vs & HV & HN & HD & H0).
  exists vs. split; [exact HV|]. unfold predict_one. split.
  - intros Ht. destruct (qeq_spec (den_at mx dim rs x) 0) as [E|E]; [|exfalso; apply E; rewrite HD; exact Ht].
    rewrite HN. field.
  - intros Ht. destruct (qeq_spec (den_at mx dim rs x) 0) as [E|E].
    + exfalso. apply Ht. rewrite <- HD. exact E.
    + rewrite HN, HD. field. exact Ht.
Qed.
Lemma predict_one_mixed mx dim rs x :
  length x = dim -> Forall (ready L dim) rs -> mixed L mx dim rs x (predict_one mx dim rs x).
Proof. intros Hx HR. apply predict_one_mixed_gen; auto. eapply Forall_impl; [|exact HR]. intros r Hr; left; exact Hr. Qed.

Lemma silent_hits dim X r x : unheard L dim X r -> Forall (fun x => length x = dim) X -> In x X -> hits r x = false.
Proof.
  intros ((Hd & _) & HC) HX HI. rewrite Forall_forall in HX. specialize (HX x HI). specialize (HC x HI).
  destruct (hits r x) eqn:E; auto. exfalso. apply HC. apply hits_covers; auto. congruence.
Qed.
Lemma mixing_call_silent mx X rs g rs' g' dim :
  Forall (fun x => length x = dim) X -> rs <> [] ->
  apply_filter L (mfilter mx) rs g = (Ok rs', g') -> Forall (fun r => ready L dim r \/ unheard L dim X r) rs' ->
  exists out, mixing_call L mx X rs false g = (Ok out, g') /\ Forall2 (mixed L mx dim rs') X out.
Proof.
  intros HX HN HF HR. pose proof HR as HR'. rewrite Forall_forall in HR'. exists (map (predict_one mx dim rs') X). split.
  - unfold mixing_call. destruct rs; [congruence|]. rewrite HF. f_equal. rewrite mix_map.
    + destruct X as [|x X]; auto. rewrite (row_len_all _ dim); auto. discriminate.
    + intros q Hq. destruct (HR' q Hq) as [H | [H _]]; apply H.
    + intros q Hq. destruct (HR' q Hq) as [H | H].
      * pose proof H as [Hd _]. apply local_pred_fresh; [rewrite Hd; exact H|]. rewrite Hd. exact HX.
      * pose proof H as [[Hd _] _]. apply local_pred_silent; [rewrite Hd; exact HX|]. intros x Hx. eapply silent_hits; eauto.
  - assert (HV : forall x, In x X -> length x = dim /\ Forall (fun r => ready L dim r \/ (length (bnd (cond r)) = dim /\ hits r x = false)) rs').
    { intros x Hx. split; [rewrite Forall_forall in HX; auto|]. rewrite Forall_forall. intros q Hq. destruct (HR' q Hq) as [H|H]; [left; exact H|].
      right. split; [apply H | eapply silent_hits; eauto]. }
    clear - HV. induction X as [|x X IH]; simpl; constructor; [|apply IH; intros; apply HV; simpl; auto].
    apply predict_one_mixed_gen; apply HV; simpl; auto.
Qed.
Lemma rmap_raise {A B} (f : A -> res B) l x : (forall a, In a l -> (exists b, f a = Ok b) \/ f a = Raise x) -> Exists (fun a => f a = Raise x) l -> rmap f l = Raise x.
Proof.
  intros H HE. induction HE as [a l Ha | a l _ IH]; simpl; [rewrite Ha; reflexivity|].
  destruct (H a) as [[b Hb] | Hb]; [simpl; auto| |]; rewrite Hb; simpl; auto. rewrite IH; auto. intros; apply H; simpl; auto.
Qed.
Lemma mixing_call_untrained mx X rs g rs' g' dim :
  Forall (fun x => length x = dim) X -> apply_filter L (mfilter mx) rs g = (Ok rs', g') -> rs <> [] ->
  Forall (fun r => ready L dim r \/ untrained L dim r) rs' -> Exists (fun r => untrained L dim r /\ exists x, In x X /\ covers (cond r) x) rs' ->
  mixing_call L mx X rs false g = (Raise NotFittedError, g').
Proof.
  intros HX HF HN HR HE. unfold mixing_call. destruct rs as [|r0 rs]; [congruence|]. rewrite HF. f_equal.
  unfold mix. rewrite (rmap_raise _ _ NotFittedError); [reflexivity | |].
  - intros q Hq. rewrite Forall_forall in HR. specialize (HR q Hq) as [H|H].
    + left. pose proof H as [Hd _]. eexists. apply local_pred_fresh; [rewrite Hd; exact H|]. rewrite Hd. exact HX.
    + destruct H as (Hd & _ & HM). destruct (existsb (hits q) X) eqn:E.
      * right. apply existsb_exists in E. destruct E as (x & HI & HH). apply (local_pred_untrained X q x); auto. rewrite Hd. exact HX.
      * left. eexists. apply local_pred_silent; [rewrite Hd; exact HX|]. intros x HI. destruct (hits q x) eqn:E2; auto.
        exfalso. assert (existsb (hits q) X = true) by (apply existsb_exists; eauto). congruence.
  - apply Exists_exists in HE. destruct HE as (q & HI & (Hd & _ & HM) & x & HX' & HC). apply Exists_exists. exists q. split; auto.
    apply (local_pred_untrained X q x); auto; [rewrite Hd; exact HX|]. apply hits_covers; auto. rewrite Forall_forall in HX. rewrite Hd. symmetry. apply HX. exact HX'.
Qed.
Lemma mixing_call_spec mx X rs g rs' g' dim :
  Forall (fun x => length x = dim) X -> rs <> [] ->
  apply_filter L (mfilter mx) rs g = (Ok rs', g') -> Forall (ready L dim) rs' ->
  exists out, mixing_call L mx X rs false g = (Ok out, g') /\ Forall2 (mixed L mx dim rs') X out.
Proof.
  intros HX HN HF HR. exists (map (predict_one mx dim rs') X). split.
  - unfold mixing_call. destruct rs; [congruence|]. rewrite HF. f_equal. apply mix_fresh; assumption.
  - clear HF HN. induction HX as [|x X Hx HX IH]; simpl; constructor; auto. apply predict_one_mixed; assumption.
Qed.
Lemma mixing_call_empty mx X cache g : mixing_call L mx X [] cache g = (Ok (repeat 0 (length X)), g).
Proof. reflexivity. Qed.

(* ----- properties of votes ----- *)
Lemma weighted_bounds vs a b :
  Forall (fun wv => 0 <= fst wv /\ a <= snd wv <= b) vs ->
  a * total vs <= weighted vs /\ weighted vs <= b * total vs.
Proof.
  induction 1 as [|[w v] vs [Hw Hv] HF IH]; simpl in *; [lra|]. nra.
Qed.
Lemma mixed_bounds mx dim rs x out a b :
  mixed L mx dim rs x out ->
  (exists r, In r rs /\ covers (cond r) x) ->
  (forall r w, In r rs -> covers (cond r) x -> has_weight L mx dim r w -> 0 < w) ->
  (forall r v, In r rs -> covers (cond r) x -> says L r x v -> a <= v <= b) ->
  a <= out <= b.
Proof.
  intros (vs & HV & _ & HO) (r0 & Hr0 & Hc0) HW HS.
  assert (HF : Forall (fun wv => 0 < fst wv /\ a <= snd wv <= b) vs).
  { clear HO Hr0 Hc0 r0. induction HV as [|r rs w v vs Hc Hw Hs HV IH|r rs vs Hc HV IH]; [constructor| |].
    - constructor.
      + simpl. split; [eapply HW|eapply HS]; eauto; simpl; auto.
      + apply IH; intros; [eapply HW|eapply HS]; eauto; simpl; auto.
    - apply IH; intros; [eapply HW|eapply HS]; eauto; simpl; auto. }
  assert (HNE : vs <> []).
  { clear - HV Hr0 Hc0. induction HV as [|r rs w v vs Hc Hw Hs HV IH|r rs vs Hc HV IH]; simpl in *; try contradiction; [discriminate|].
    destruct Hr0 as [->|H]; [contradiction|auto]. }
  assert (HT : 0 < total vs).
  { assert (HT0 : 0 <= total vs).
    { clear - HF. induction HF as [|[w v] vs [H _] HF IH]; simpl in *; lra. }
    destruct HF as [|[w v] vs [H _] HF]; [congruence|]. simpl in *.
    assert (0 <= total vs) by (clear - HF; induction HF as [|[w v] vs [H _] HF IH]; simpl in *; lra). lra. }
  assert (HO' : out * total vs == weighted vs) by (apply HO; lra).
  destruct (weighted_bounds vs a b) as [H1 H2].
  { eapply Forall_impl; [|exact HF]. simpl. intros; lra. }
  nra.
Qed.
Lemma mixed_single mx dim rs x out r v :
  mixed L mx dim rs x out ->
  (exists l1 l2, rs = l1 ++ r :: l2 /\ Forall (fun r' => ~ covers (cond r') x) (l1 ++ l2)) ->
  covers (cond r) x -> says L r x v -> (forall w, has_weight L mx dim r w -> ~ w == 0) -> out == v.
Proof.
  intros (vs & HV & _ & HO) (l1 & l2 & -> & HN) Hc Hs Hw.
  assert (HE : exists w v', vs = [(w, v')] /\ has_weight L mx dim r w /\ says L r x v').
  { clear HO. revert vs HV. induction l1 as [|a l1 IH]; intros vs HV; simpl in *.
    - inversion HV; subst; [|contradiction]. 
      match goal with H : votes _ _ _ _ l2 _ |- _ => rename H into HV2 end.
      assert (vs0 = []).
      { clear - HV2 HN. induction HV2; auto; inversion HN; subst; [contradiction|auto]. }
      subst. eauto.
    - inversion HN as [|? ? Ha HN']; subst. inversion HV; subst; [contradiction|]. eauto. }
  destruct HE as (w & v' & -> & Hw' & (mdl & Hm & Hv')). destruct Hs as (mdl' & Hm' & ->).
  assert (mdl' = mdl) by congruence. subst. specialize (Hw w Hw'). simpl in HO.
  assert (H : out * (w + 0) == w * mpred L mdl x + 0) by (apply HO; lra).
  assert (H2 : (out - mpred L mdl x) * w == 0) by lra.
  apply Qmult_integral in H2. destruct H2 as [H2|H2]; [lra|contradiction].
Qed.

(* ----- C14: caches ----- *)
Lemma truthful_local_pred m X y r :
  truthful L m X y r -> Forall (fun x => length x = length (bnd m)) X -> length y = length X ->
  local_pred L X true r = local_pred L X false r.
Proof.
  intros [Hc (a & Ha & HFl & H0 & H1)] HX Hy. unfold local_pred, get_att. rewrite Ha. simpl. rewrite Hc.
  rewrite match_call_ok by exact HX. simpl.
  assert (Em : match_set a = matches m X).
  { clear - HFl HX. unfold flags_of, matches in *. revert HX. generalize (match_set a) HFl. clear HFl.
    induction X as [|x X IH]; intros fl HFl HX; inversion HFl; subst; simpl; auto. inversion HX; subst. f_equal; auto.
    assert (row_matches (mt m) (bnd m) x = true <-> covers m x) by (apply row_matches_covers; congruence).
    destruct y, (row_matches (mt m) (bnd m) x); auto; try tauto; destruct H1; intuition congruence. }
  rewrite <- Em.
  assert (HLm : length (match_set a) = length X) by (rewrite Em; apply matches_length).
  destruct (existsb (fun b => b) (match_set a)) eqn:E.
  - assert (HN : compress X (match_set a) <> []).
    { intros H. apply (existsb_compress X _ HLm) in H. congruence. }
    destruct (H1 HN) as (_ & Hm & Hp & _). unfold rule_predict. rewrite Hm. simpl. rewrite Hp. reflexivity.
  - assert (HN : compress X (match_set a) = []) by (apply (existsb_compress X _ HLm); exact E).
    destruct (H0 HN) as (_ & _ & _ & _ & Hp). rewrite Hp. unfold scatter. rewrite HLm, Nat.eqb_refl. cbn [negb].
    assert (HC : count_true (match_set a) = 0%nat) by (rewrite (count_true_compress X); [rewrite HN; reflexivity|exact HLm]).
    rewrite HC. simpl. f_equal. f_equal. rewrite <- HLm. clear - E. induction (match_set a) as [|b l IH]; simpl in *; auto.
    destruct b; [discriminate|]. rewrite IH; auto.
Qed.
Lemma rmap_ext_in {A B} (f h : A -> res B) l : (forall x, In x l -> f x = h x) -> rmap f l = rmap h l.
Proof.
  induction l as [|x l IH]; intros H; simpl; auto. rewrite H by (simpl; auto).
  rewrite IH; [reflexivity|]. intros; apply H; simpl; auto.
Qed.
Lemma take_out_In {A} k (l : list A) g : incl (fst (take_out k l g)) l.
Proof.
  destruct (Nat.le_gt_cases k (length l)) as [H|H].
  - destruct (take_out_perm k l g H) as (rest & HP & _). intros x Hx. eapply Permutation_in; [apply Permutation_sym; exact HP|]. apply in_or_app; auto.
  - revert l g H; induction k as [|k IH]; intros [|a l] g H x Hx; simpl in *; try lia; try contradiction.
    destruct (take_out k (remove_nth (index_of (S (length l)) (tape g (pos g))) (a :: l)) (mkRng (tape g) (S (pos g)))) as [rest g2] eqn:E.
    destruct Hx as [<-|Hx].
    + exact (nth_In (a :: l) a (index_of_lt (S (length l)) _ (Nat.lt_0_succ _))).
    + assert (HR : forall (l : list A) i z, In z (remove_nth i l) -> In z l).
      { clear. induction l as [|b l IH]; intros [|i] z Hz; simpl in *; auto. destruct Hz; eauto. }
      assert (Hin : In x (remove_nth (index_of (S (length l)) (tape g (pos g))) (a :: l))).
      { pose proof (IH (remove_nth (index_of (S (length l)) (tape g (pos g))) (a :: l)) (mkRng (tape g) (S (pos g)))) as IH'.
        rewrite E in IH'. apply IH'; auto.
        assert (HLr : forall (l : list A) i, (i < length l)%nat -> length (remove_nth i l) = (length l - 1)%nat).
        { clear. induction l as [|b l IH]; intros [|i] Hi; simpl in *; try lia. rewrite IH; lia. }
        rewrite HLr; simpl; [lia|]. apply index_of_lt; lia. }
      exact (HR _ _ _ Hin).
Qed.
Lemma filter_incl f rs g rs' g' : apply_filter L f rs g = (Ok rs', g') -> incl rs' rs.
Proof.
  destruct f as [|n|n|n]; simpl.
  - intros H; inversion H; subst. apply incl_refl.
  - destruct (rmap (fitness_of L) rs) eqn:E; simpl; [|discriminate]. intros H; inversion H; subst.
    intros x Hx. apply In_last_n in Hx. apply sort_In in Hx. exact Hx.
  - unfold sample. destruct (Nat.ltb _ _); [discriminate|].
    destruct (take_out _ rs g) as [l g1] eqn:E. intros H; inversion H; subst.
    pose proof (take_out_In (Nat.min (length rs) n) rs g) as HT. rewrite E in HT. exact HT.
  - destruct (rmap (fitness_of L) rs) as [fs|e]; [|discriminate].
    destruct (_ && _); [|discriminate].
    set (cs := compress rs _). unfold sample. destruct (Nat.ltb _ _); [discriminate|].
    destruct (take_out _ cs g) as [l g1] eqn:E. intros H; inversion H; subst.
    pose proof (take_out_In (Nat.min (length rs) n) cs g) as HT. rewrite E in HT. simpl in HT.
    intros x Hx. apply HT in Hx. apply compress_In in Hx. exact Hx.
Qed.
Lemma cache_agrees mx X y rs g :
  length y = length X ->
  Forall (fun r => truthful L (cond r) X y r /\ Forall (fun x => length x = length (bnd (cond r))) X) rs ->
  mixing_call L mx X rs true g = mixing_call L mx X rs false g.
Proof.
  intros Hy HF. unfold mixing_call. destruct rs as [|r0 rs0] eqn:E0; auto. rewrite <- E0 in *.
  destruct (apply_filter L (mfilter mx) rs g) as [[rs'|e] g'] eqn:E; auto. f_equal.
  pose proof (filter_incl _ _ _ _ _ E) as HI. unfold mix.
  rewrite (rmap_ext_in (local_pred L X true) (local_pred L X false)); auto.
  intros r Hr. apply HI in Hr. rewrite Forall_forall in HF. destruct (HF r Hr) as [HT HX].
  eapply truthful_local_pred; eauto.
Qed.
End Mixing.
