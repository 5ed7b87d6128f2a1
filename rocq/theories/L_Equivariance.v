(* Shifted and rescaled targets. *)
From Coq Require Import Lia Permutation.
From Verif Require Import PyNum PyList PyMon PyRng L_Num L_List M_Matching S_Matching L_Matching M_Rule S_Rule L_Rule L_RuleProps M_Mixing S_Mixing L_Mixing L_MixingProps S_Discovery S_Invariance L_Invariance S_Equivariance.
From Coq Require Import Lqa.

Lemma combine_retarget (q : Q -> Q) (X : matrix) (y : targets) : combine X (map q y) = map (fun p => (fst p, q (snd p))) (combine X y).
Proof. revert y. induction X as [|x X IH]; intros [|t y]; try reflexivity. cbn. rewrite IH. reflexivity. Qed.
Lemma same_quotient a b n n' : a == b -> n = n' -> a / n == b / n'.
Proof. intros H <-. rewrite H. reflexivity. Qed.
Section Moved.
Variable L : learner.
Variable q : Q -> Q.
Hypothesis HF : follows L q.
Notation rt := (fun p : row * Q => (fst p, q (snd p))).
Lemma retarget_samples m (X : matrix) (y : targets) : filter (inside_of m) (combine X (retargeted q y)) = map rt (filter (inside_of m) (combine X y)).
Proof. unfold retargeted. rewrite combine_retarget. apply filter_map_swap. intros p _. reflexivity. Qed.
Lemma moved_pairs (s : list (row * Q)) : s <> [] -> forall x, mpred L (train L (map fst (map rt s)) (map snd (map rt s))) x == q (mpred L (train L (map fst s) (map snd s)) x).
Proof.
  intros HN x. rewrite !map_map. cbn [fst snd]. pose proof (HF (map fst s) (map snd s) x) as H. unfold retargeted in H. rewrite map_map in H. apply H; [destruct s; [congruence|discriminate]|rewrite !map_length; reflexivity].
Qed.
End Moved.

Lemma tau_values L mx dim (r r' : rule L) : same_values (att r) (att r') -> tauq L mx dim r == tauq L mx dim r'.
Proof.
  intros HV. unfold tauq. destruct (att r) as [a|], (att r') as [b|]; try contradiction; [|reflexivity]. destruct HV as (_ & HE & _ & HX).
  pose proof (calc_same (mexp mx) dim _ _ HX) as HC. destruct (error a), (error b); try contradiction; cbn in HE; rewrite HC; try reflexivity. rewrite HE. reflexivity.
Qed.
Lemma ready_values L d (r r' : rule L) q : cond r = cond r' -> moved_model L q (rmodel r) (rmodel r') -> same_values (att r) (att r') -> S_Mixing.ready L d r -> S_Mixing.ready L d r'.
Proof.
  intros HC HM HV (Hd & (a & Ha & He) & mdl & Hm). split; [congruence|]. split.
  - rewrite Ha in HV. destruct (att r') as [b|] eqn:E; [|contradiction]. exists b. split; [exact E|]. destruct HV as (_ & HE & _). destruct He as [He|(e & He & Hp)]; rewrite He in HE; destruct (error b) as [z| | |]; try contradiction; [left; reflexivity|right].
    cbn in HE. exists z. split; [reflexivity|]. rewrite <- HE. exact Hp.
  - rewrite Hm in HM. destruct (rmodel r') as [m|]; [exists m; reflexivity|contradiction].
Qed.
(* weights are positive: the sum of those that match is zero exactly if none does *)
Lemma den_zero L mx d (rs : list (rule L)) x : length x = d -> Forall (S_Mixing.ready L d) rs -> (forall r, In r rs -> 0 < tauq L mx d r) ->
  0 <= den_at L mx d rs x /\ ((exists r, In r rs /\ covers (cond r) x) -> 0 < den_at L mx d rs x) /\ ((forall r, In r rs -> ~ covers (cond r) x) -> den_at L mx d rs x == 0 /\ num_at L mx d rs x == 0).
Proof.
  intros Hx HR HP. unfold den_at, num_at, qsum. induction HR as [|r rs Hr HR IH]; cbn [map fold_right]; [split; [lra|]; split; [intros (r & [] & _)|intros _; split; reflexivity]|].
  destruct IH as (IH0 & IH1 & IH2); [intros z Hz; apply HP; right; exact Hz|]. pose proof (HP r (or_introl eq_refl)) as Hp.
  assert (HH : hits L r x = true <-> covers (cond r) x) by (apply hits_covers; destruct Hr as [Hd _]; congruence).
  destruct (hits L r x) eqn:E.
  - split; [lra|]. split; [intros _; lra|]. intros HN. exfalso. apply (HN r (or_introl eq_refl)). apply HH. reflexivity.
  - split; [lra|]. split.
    + intros (z & [<-|Hz] & Hc); [apply HH in Hc; discriminate|]. assert (0 < fold_right Qplus 0 (map (fun r => if hits L r x then tauq L mx d r else 0) rs)) by (apply IH1; exists z; auto). lra.
    + intros HN. destruct IH2 as [A B]; [intros z Hz; apply HN; right; exact Hz|]. split; [lra|]. rewrite B. ring.
Qed.

Section Shift.
Variable L : learner.
Variable c : Q.
Hypothesis HF : follows L (shift c).
Hypothesis HS : sound_fitness L.
Notation moved := (@shifted L c).
Lemma shift_fit m X y d r r' : table d X y -> length (bnd m) = d -> fitted_from L X y m r -> fitted_from L X (retargeted (shift c) y) m r' -> moved r r'.
Proof.
  intros [HX HL] Hd E E'. unfold fitted_from in *. rewrite (fit_samples L m X y) in E by (rewrite ?Hd; assumption). rewrite (fit_samples L m X) in E' by (unfold retargeted; rewrite ?Hd, ?map_length; assumption).
  rewrite retarget_samples in E'. injection E as <-. injection E' as <-. generalize (filter (inside_of m) (combine X y)). intros s.
  destruct s as [|p s]; [split; [reflexivity|]; split; [exact I|cbn; repeat split; reflexivity]|].
  pose proof (moved_pairs L (shift c) HF (p :: s) ltac:(discriminate)) as HM.
  assert (HE : floor_error (mse (map snd (p :: s)) (map (mpred L (train L (map fst (p :: s)) (map snd (p :: s)))) (map fst (p :: s)))) ==
     floor_error (mse (map snd (map (fun p : row * Q => (fst p, shift c (snd p))) (p :: s))) (map (mpred L (train L (map fst (map (fun p : row * Q => (fst p, shift c (snd p))) (p :: s))) (map snd (map (fun p : row * Q => (fst p, shift c (snd p))) (p :: s))))) (map fst (map (fun p : row * Q => (fst p, shift c (snd p))) (p :: s)))))).
  { apply floor_same. rewrite !mse_pairs, map_length, map_map. cbn [fst snd].
    match goal with |- ?a / ?n == ?b / ?n => assert (EE : a == b); [|rewrite EE; reflexivity] end. apply qsum_map_ext. intros z _. rewrite HM. unfold shift. ring. }
  split; [reflexivity|]. split; [exact HM|]. unfold from_samples. cbn [map att same_values M_Rule.is_fitted error M_Rule.fitness experience length] in *.
  split; [reflexivity|]. split; [exact HE|]. split; [apply HS; exact HE|]. rewrite map_length. reflexivity.
Qed.
Lemma shift_sums mx d rs rs' x : Forall2 moved rs rs' -> Forall (S_Mixing.ready L d) rs -> den_at L mx d rs' x == den_at L mx d rs x /\ num_at L mx d rs' x == num_at L mx d rs x + c * den_at L mx d rs x.
Proof.
  intros H HR. unfold den_at, num_at, qsum. induction H as [|r r' rs rs' (H1 & H2 & H3) H IH]; cbn [map fold_right]; [split; [reflexivity|ring]|].
  apply Forall_cons_iff in HR as [(_ & _ & mdl & Hm) HR]. destruct (IH HR) as [IH1 IH2]. assert (HH : hits L r' x = hits L r x) by (unfold hits; rewrite H1; reflexivity). pose proof (tau_values L mx d r r' H3) as HT. rewrite HH.
  destruct (hits L r x); [|rewrite IH1, IH2; split; ring]. assert (HG : guess L r' x == guess L r x + c). { unfold guess. rewrite Hm in *. destruct (rmodel r') as [m|]; [|contradiction]. exact (H2 x). }
  rewrite IH1, IH2, HG, HT. split; ring.
Qed.
Lemma shift_call mx d rs rs' g : Forall2 moved rs rs' -> Forall (S_Mixing.ready L d) rs -> (forall r w, In r rs -> has_weight L mx d r w -> 0 < w) ->
  (exists e g', forall X, Forall (fun x => length x = d) X -> X <> [] -> mixing_call L mx X rs false g = (Raise e, g') /\ mixing_call L mx X rs' false g = (Raise e, g')) \/
  (exists out h h' g', incl out rs /\ (mfilter mx = KeepAll -> out = rs) /\ (forall x, length x = d -> mixed L mx d out x (h x)) /\ (forall X, Forall (fun x => length x = d) X -> mixing_call L mx X rs false g = (Ok (map h X), g') /\ mixing_call L mx X rs' false g = (Ok (map h' X), g')) /\
    forall x, length x = d -> ((exists r, In r out /\ covers (cond r) x) -> h' x == h x + c) /\ ((forall r, In r out -> ~ covers (cond r) x) -> h x == 0 /\ h' x == 0)).
Proof.
  intros H HR HW. destruct rs as [|r0 rs0].
  { inversion H; subst. right. exists [], (fun _ => 0), (fun _ => 0), g. split; [apply incl_refl|]. split; [reflexivity|]. split; [intros x _; exists []; split; [constructor|]; split; [reflexivity|cbn; intros N; exfalso; apply N; reflexivity]|]. split; [intros X _; cbn [mixing_call]; assert (E : repeat 0 (length X) = map (fun _ => 0) X) by (induction X; cbn; congruence); rewrite E; split; reflexivity|].
    intros x _. split; [intros (r & [] & _)|intros _; split; reflexivity]. }
  inversion H as [|? r0' ? rs0' HH1 HH2]; subst. set (l := r0 :: rs0) in *. set (l' := r0' :: rs0') in *.
  pose proof (filter_same L moved (fun a b (Hm : moved a b) => proj2 (proj2 Hm)) (mfilter mx) l l' g H) as HFl.
  assert (E : forall X, mixing_call L mx X l false g = match apply_filter L (mfilter mx) l g with (Ok o, g') => (mix L mx X o false, g') | (Raise e, g') => (Raise e, g') end) by reflexivity.
  assert (E' : forall X, mixing_call L mx X l' false g = match apply_filter L (mfilter mx) l' g with (Ok o, g') => (mix L mx X o false, g') | (Raise e, g') => (Raise e, g') end) by reflexivity.
  destruct (apply_filter L (mfilter mx) l g) as [[o|e] g1] eqn:E1, (apply_filter L (mfilter mx) l' g) as [[o'|e'] g2] eqn:E2; try contradiction.
  - right. destruct HFl as [<- HO]. pose proof (filter_incl _ _ _ _ _ _ E1) as HInc.
    assert (HRo : Forall (S_Mixing.ready L d) o) by (apply Forall_forall; intros r Hr; apply HInc in Hr; rewrite Forall_forall in HR; exact (HR r Hr)).
    assert (HRo' : Forall (S_Mixing.ready L d) o'). { clear - HO HRo. induction HO as [|r r' o o' (A & B & D) HO IH]; [constructor|]. apply Forall_cons_iff in HRo as [HR1 HR2]. constructor; [eapply ready_values; eassumption|apply IH; exact HR2]. }
    exists o, (predict_one L mx d o), (predict_one L mx d o'), g1. split; [exact HInc|]. split; [intros HK; rewrite HK in E1; cbn [apply_filter] in E1; congruence|]. split; [intros x Hx; apply predict_one_mixed; assumption|]. split.
    + intros X HX. rewrite E, E', (mix_fresh L mx X o d HX HRo), (mix_fresh L mx X o' d HX HRo'). split; reflexivity.
    + intros x Hx. destruct (shift_sums mx d o o' x HO HRo) as [HD HN].
      assert (HP : forall r, In r o -> 0 < tauq L mx d r). { intros r Hr. rewrite Forall_forall in HRo. destruct (ready_vote L mx d r x (HRo r Hr) Hx) as [Hw _]. apply (HW r _ (HInc r Hr) Hw). }
      destruct (den_zero L mx d o x Hx HRo HP) as (_ & Z1 & Z2). unfold predict_one. rewrite (qeq_same _ 0 _ 0 HD) by reflexivity. split.
      * intros HC. specialize (Z1 HC). destruct (qeq_spec (den_at L mx d o x) 0) as [Z|Z]; [lra|]. rewrite HN, HD. field. exact Z.
      * intros HC. destruct (Z2 HC) as [Z3 Z4]. destruct (qeq_spec (den_at L mx d o x) 0) as [Z|Z]; [|contradiction]. rewrite HN, Z3, Z4. split; field.
  - left. destruct HFl as [<- <-]. exists e, g1. intros X _ _. split; [apply E|apply E'].
Qed.
Lemma shift_pool X y d ms pool pool' : table d X y -> Forall (fun m => length (bnd m) = d) ms -> Forall2 (fitted_from L X y) ms pool -> Forall2 (fitted_from L X (retargeted (shift c) y)) ms pool' -> Forall2 moved pool pool'.
Proof.
  intros HT HD H. revert pool'. induction H as [|m r ms pool H1 H2 IH]; intros pool' H'; inversion H'; subst; constructor.
  - apply Forall_cons_iff in HD as [D1 _]. eapply shift_fit; eassumption.
  - apply Forall_cons_iff in HD as [_ D2]. apply IH; assumption.
Qed.
Lemma predict_compress mx genome (pool : list (rule L)) Z g : length genome = length pool -> sol_predict L mx genome pool Z false g = mixing_call L mx Z (compress pool genome) false g.
Proof. intros HG. unfold sol_predict, subpopulation. rewrite HG, Nat.eqb_refl. reflexivity. Qed.
Lemma shift_predictions ms pool pool' genome mx X y d g : table d X y -> Forall (fun m => length (bnd m) = d) ms -> Forall (fun m => exists x, In x X /\ covers m x) ms ->
  Forall2 (fitted_from L X y) ms pool -> Forall2 (fitted_from L X (retargeted (shift c) y)) ms pool' -> length genome = length pool ->
  (forall r w, In r (compress pool genome) -> has_weight L mx d r w -> 0 < w) ->
  (exists e g', forall Z, Forall (fun x => length x = d) Z -> Z <> [] -> sol_predict L mx genome pool Z false g = (Raise e, g') /\ sol_predict L mx genome pool' Z false g = (Raise e, g')) \/
  (exists out h h' g', incl out (compress pool genome) /\ (mfilter mx = KeepAll -> out = compress pool genome) /\ (forall x, length x = d -> mixed L mx d out x (h x)) /\
    (forall Z, Forall (fun x => length x = d) Z -> sol_predict L mx genome pool Z false g = (Ok (map h Z), g') /\ sol_predict L mx genome pool' Z false g = (Ok (map h' Z), g')) /\
    forall x, length x = d -> ((exists r, In r out /\ covers (cond r) x) -> h' x == h x + c) /\ ((forall r, In r out -> ~ covers (cond r) x) -> h x == 0 /\ h' x == 0)).
Proof.
  intros HT HD HC HP HP' HG HW. pose proof (shift_pool X y d ms pool pool' HT HD HP HP') as HM. destruct (pool_ready L d X y ms pool HT HD HC HP) as [HR _].
  assert (HG' : length genome = length pool') by (rewrite HG; eapply L_List.Forall2_len; exact HM).
  assert (HRc : Forall (S_Mixing.ready L d) (compress pool genome)) by (apply Forall_forall; intros r Hr; apply compress_In in Hr; rewrite Forall_forall in HR; exact (HR r Hr)).
  destruct (shift_call mx d _ _ g (compress_same moved _ _ HM genome) HRc HW) as [(e & g' & A)|(out & h & h' & g' & A & B & M & C & D)]; [left; exists e, g'|right; exists out, h, h', g'].
  - intros Z H1 H2. rewrite !predict_compress by assumption. apply A; assumption.
  - split; [exact A|]. split; [exact B|]. split; [exact M|]. split; [|exact D]. intros Z HZ. rewrite !predict_compress by assumption. apply C. exact HZ.
Qed.
(* every sample is matched: the measurements stay *)
Lemma shift_solution ms pool pool' genome mx sfit X y d g : (forall e e' c n, e == e' -> same_num (sfit e c n) (sfit e' c n)) ->
  table d X y -> X <> [] -> Forall (fun m => length (bnd m) = d) ms -> Forall (fun m => exists x, In x X /\ covers m x) ms ->
  Forall2 (fitted_from L X y) ms pool -> Forall2 (fitted_from L X (retargeted (shift c) y)) ms pool' -> length genome = length pool ->
  mfilter mx = KeepAll -> (forall r w, In r (compress pool genome) -> has_weight L mx d r w -> 0 < w) -> Forall (fun x => exists r, In r (compress pool genome) /\ covers (cond r) x) X ->
  exists a a' g', sol_fit L mx sfit genome pool X y g = (Ok a, g') /\ sol_fit L mx sfit genome pool' X (retargeted (shift c) y) g = (Ok a', g') /\ same_measures a a'.
Proof.
  intros Hsf HT HN HD HC HP HP' HG HK HW HX. pose proof (shift_pool X y d ms pool pool' HT HD HP HP') as HM.
  assert (HG' : length genome = length pool') by (rewrite HG; eapply L_List.Forall2_len; exact HM).
  assert (HT' : table d X (retargeted (shift c) y)) by (split; [apply HT|unfold retargeted; rewrite map_length; apply HT]).
  unfold sol_fit. rewrite (cached L d ms pool genome mx X y g HT HD HC HP HG), (cached L d ms pool' genome mx X _ g HT' HD HC HP' HG').
  destruct (shift_predictions ms pool pool' genome mx X y d g HT HD HC HP HP' HG HW) as [(e & g' & A)|(out & h & h' & g' & A & B & M & C & D)].
  - exfalso. destruct (A X (proj1 HT) HN) as [E _]. rewrite predict_compress in E by exact HG. destruct (compress pool genome) as [|r0 rs] eqn:Ec; [cbn in E; discriminate|].
    assert (HR : Forall (S_Mixing.ready L d) (r0 :: rs)) by (rewrite <- Ec; destruct (pool_ready L d X y ms pool HT HD HC HP) as [HR _]; apply Forall_forall; intros r Hr; apply compress_In in Hr; rewrite Forall_forall in HR; exact (HR r Hr)).
    cbn [mixing_call] in E. rewrite HK in E. cbn [apply_filter] in E. rewrite (mix_fresh L mx X _ d (proj1 HT) HR) in E. discriminate.
  - rewrite (B HK) in D. clear A B. destruct (C X (proj1 HT)) as [C1 C2]. rewrite C1, C2. rewrite !map_length. unfold retargeted at 1 2. rewrite !map_length. destruct HT as [HFl HL]. rewrite HL, Nat.eqb_refl.
    destruct X as [|x X0]; [congruence|]. set (X := x :: X0) in *. replace (Nat.eqb (length X) 0) with false by reflexivity. cbn [negb orb].
    assert (HE : floor_error (mse y (map h X)) == floor_error (mse (retargeted (shift c) y) (map h' X))).
    { apply floor_same. pose proof (mse_rows h X y HL) as M1. assert (HLr : length (retargeted (shift c) y) = length X) by (unfold retargeted; rewrite map_length; exact HL). pose proof (mse_rows h' X _ HLr) as M2.
      rewrite mse_pairs in M1, M2. unfold retargeted in M2 at 2 3. rewrite combine_retarget, map_map, map_length in M2. cbn [fst snd] in M2.
      eapply Qeq_trans; [exact (eq_ind_r (fun q => mse y (map h X) == q) (Qeq_refl _) (eq_sym M1))|]. eapply Qeq_trans; [|exact (eq_ind_r (fun q => q == mse (retargeted (shift c) y) (map h' X)) (Qeq_refl _) (eq_sym M2))].
      apply same_quotient; [|reflexivity]. apply qsum_map_ext. intros [x1 t1] Hz. cbn [fst snd].
      assert (HI : In x1 X) by (apply in_combine_l in Hz; exact Hz). rewrite Forall_forall in HX, HFl. destruct (D x1 (HFl _ HI)) as [D1 _]. rewrite (D1 (HX _ HI)). unfold shift. ring. }
    do 3 eexists. split; [reflexivity|]. split; [reflexivity|]. unfold same_measures. cbn. repeat split; auto.
Qed.
End Shift.

Lemma sampled_att L m s b : s <> [] -> exists a, att (from_samples L m s b) = Some a /\ M_Rule.is_fitted a = true /\ error a = Fin (floor_error (mse (map snd s) (map (mpred L (train L (map fst s) (map snd s))) (map fst s)))) /\ experience a = qofnat (length s).
Proof. destruct s as [|p s]; [congruence|]. intros _. eexists. split; [reflexivity|]. split; [reflexivity|]. split; reflexivity. Qed.
Section Scale.
Variable L : learner.
Variable k : Q.
Hypothesis Hk : ~ k == 0.
Hypothesis HF : follows L (scale k).
Notation moved := (@scaled L k).
Lemma floor_above e : (1 # 10000) < floor_error e -> floor_error e == e.
Proof. destruct (floor_error_spec e) as (_ & _ & [H|H]); intros HH; [exact H|lra]. Qed.
Lemma twice a b : a == b -> k * k * a == k * k * b.
Proof. intros ->. reflexivity. Qed.
Lemma mse_scaled (s1 : list (row * Q)) (s2 := map (fun p : row * Q => (fst p, scale k (snd p))) s1) :
  (forall x, mpred L (train L (map fst s2) (map snd s2)) x == scale k (mpred L (train L (map fst s1) (map snd s1)) x)) ->
  mse (map snd s2) (map (mpred L (train L (map fst s2) (map snd s2))) (map fst s2)) == k * k * mse (map snd s1) (map (mpred L (train L (map fst s1) (map snd s1))) (map fst s1)).
Proof.
  generalize (mpred L (train L (map fst s2) (map snd s2))) (mpred L (train L (map fst s1) (map snd s1))). intros p2 p1 HM. rewrite !mse_pairs. unfold s2. rewrite map_length, map_map. cbn [fst snd].
  assert (EE : qsum (map (fun z : row * Q => (scale k (snd z) - p2 (fst z)) * (scale k (snd z) - p2 (fst z))) s1) == k * k * qsum (map (fun z : row * Q => (snd z - p1 (fst z)) * (snd z - p1 (fst z))) s1)).
  { clear - HM. induction s1 as [|z l IH]; [cbn; ring|]. unfold qsum in *. cbn [map fold_right]. rewrite IH, (HM (fst z)). unfold scale. ring. }
  rewrite EE. unfold Qdiv. ring.
Qed.
Lemma scale_fit m X y d r r' : table d X y -> length (bnd m) = d -> fitted_from L X y m r -> fitted_from L X (retargeted (scale k) y) m r' -> above_floor r -> above_floor r' -> moved r r'.
Proof.
  intros [HX HL] Hd E E'. unfold fitted_from in *. rewrite (fit_samples L m X y) in E by (rewrite ?Hd; assumption). rewrite (fit_samples L m X) in E' by (unfold retargeted; rewrite ?Hd, ?map_length; assumption).
  rewrite retarget_samples in E'. injection E as <-. injection E' as <-. generalize (filter (inside_of m) (combine X y)). intros s.
  destruct s as [|p s]; [intros (a & e & H1 & H2 & _); cbn in H1; injection H1 as <-; discriminate|].
  pose proof (moved_pairs L (scale k) HF (p :: s) ltac:(discriminate)) as HM. set (s1 := p :: s) in *. set (s2 := map (fun p : row * Q => (fst p, scale k (snd p))) s1) in *.
  assert (N2 : s2 <> []) by discriminate.
  match goal with |- above_floor (from_samples L m s1 ?b1) -> above_floor (from_samples L m s2 ?b2) -> _ => destruct (sampled_att L m s1 b1 ltac:(discriminate)) as (a & A1 & A2 & A3 & A4); destruct (sampled_att L m s2 b2 N2) as (b & B1 & B2 & B3 & B4) end.
  intros (a0 & e & P1 & P2 & P3) (b0 & e' & Q1 & Q2 & Q3). rewrite A1 in P1. injection P1 as <-. rewrite B1 in Q1. injection Q1 as <-. rewrite A3 in P2. injection P2 as <-. rewrite B3 in Q2. injection Q2 as <-.
  split; [reflexivity|]. split; [exact HM|]. exists a, b. do 2 eexists. split; [exact A1|]. split; [exact B1|]. split; [congruence|]. split; [exact A3|]. split; [exact B3|]. split.
  - apply floor_above in P3. apply floor_above in Q3. eapply Qeq_trans; [exact Q3|]. eapply Qeq_trans; [exact (mse_scaled s1 HM)|]. apply twice. apply Qeq_sym. exact P3.
  - rewrite A4, B4. unfold s2. rewrite map_length. reflexivity.
Qed.
Lemma scale_tau mx d r r' : moved r r' -> above_floor r -> tauq L mx d r' == tauq L mx d r / (k * k).
Proof.
  intros (_ & _ & a & b & e & e' & A & B & _ & A2 & B2 & HE & HX) (a0 & e0 & P1 & P2 & P3). rewrite A in P1. injection P1 as <-. rewrite A2 in P2. injection P2 as <-. unfold tauq. rewrite A, B, A2, B2.
  rewrite <- (calc_same (mexp mx) d _ _ HX), HE. field. split; [lra|exact Hk].
Qed.
Lemma scale_sums mx d rs rs' x : Forall2 moved rs rs' -> Forall above_floor rs -> Forall (S_Mixing.ready L d) rs -> den_at L mx d rs' x == den_at L mx d rs x / (k * k) /\ num_at L mx d rs' x == num_at L mx d rs x / k.
Proof.
  intros H HA HR. unfold den_at, num_at, qsum. induction H as [|r r' rs rs' Hr H IH]; cbn [map fold_right]; [split; field; exact Hk|].
  apply Forall_cons_iff in HR as [(_ & _ & mdl & Hm) HR]. apply Forall_cons_iff in HA as [HA1 HA]. destruct (IH HA HR) as [IH1 IH2]. pose proof (scale_tau mx d r r' Hr HA1) as HT. destruct Hr as (H1 & H2 & H3).
  assert (HH : hits L r' x = hits L r x) by (unfold hits; rewrite H1; reflexivity). rewrite HH.
  destruct (hits L r x); [|rewrite IH1, IH2; split; field; exact Hk]. assert (HG : guess L r' x == k * guess L r x). { unfold guess. rewrite Hm in *. destruct (rmodel r') as [m|]; [|contradiction]. exact (H2 x). }
  rewrite IH1, IH2, HG, HT. split; field; exact Hk.
Qed.
Lemma scale_ready d r r' : moved r r' -> above_floor r' -> S_Mixing.ready L d r -> S_Mixing.ready L d r'.
Proof.
  intros (H1 & H2 & _) (a & e & A1 & A2 & A3) (Hd & _ & mdl & Hm). split; [congruence|]. split; [exists a; split; [exact A1|]; right; exists e; split; [exact A2|lra]|].
  rewrite Hm in H2. destruct (rmodel r') as [m|]; [exists m; reflexivity|contradiction].
Qed.
Lemma scale_pool X y d ms pool pool' : table d X y -> Forall (fun m => length (bnd m) = d) ms -> Forall2 (fitted_from L X y) ms pool -> Forall2 (fitted_from L X (retargeted (scale k) y)) ms pool' ->
  Forall above_floor pool -> Forall above_floor pool' -> Forall2 moved pool pool'.
Proof.
  intros HT HD H. revert pool'. induction H as [|m r ms pool H1 H2 IH]; intros pool' H' HA HA'; inversion H'; subst; constructor; apply Forall_cons_iff in HD as [D1 D2]; apply Forall_cons_iff in HA as [A1 A2]; apply Forall_cons_iff in HA' as [B1 B2].
  - eapply scale_fit; eassumption.
  - apply IH; assumption.
Qed.
Lemma scale_predictions ms pool pool' genome mx X y d g : table d X y -> Forall (fun m => length (bnd m) = d) ms -> Forall (fun m => exists x, In x X /\ covers m x) ms ->
  Forall2 (fitted_from L X y) ms pool -> Forall2 (fitted_from L X (retargeted (scale k) y)) ms pool' -> Forall above_floor pool -> Forall above_floor pool' -> length genome = length pool ->
  mfilter mx = KeepAll -> (forall r w, In r (compress pool genome) -> has_weight L mx d r w -> 0 < w) ->
  exists h h', (forall Z, Forall (fun x => length x = d) Z -> sol_predict L mx genome pool Z false g = (Ok (map h Z), g) /\ sol_predict L mx genome pool' Z false g = (Ok (map h' Z), g)) /\
    forall x, length x = d -> h' x == k * h x.
Proof.
  intros HT HD HC HP HP' HA HA' HG HK HW. pose proof (scale_pool X y d ms pool pool' HT HD HP HP' HA HA') as HM. destruct (pool_ready L d X y ms pool HT HD HC HP) as [HR _].
  assert (HG' : length genome = length pool') by (rewrite HG; eapply L_List.Forall2_len; exact HM).
  assert (HRc : Forall (S_Mixing.ready L d) (compress pool genome)) by (apply Forall_forall; intros r Hr; apply compress_In in Hr; rewrite Forall_forall in HR; exact (HR r Hr)).
  assert (HAc : Forall above_floor (compress pool genome)) by (apply Forall_forall; intros r Hr; apply compress_In in Hr; rewrite Forall_forall in HA; exact (HA r Hr)).
  assert (HAc' : Forall above_floor (compress pool' genome)) by (apply Forall_forall; intros r Hr; apply compress_In in Hr; rewrite Forall_forall in HA'; exact (HA' r Hr)).
  pose proof (compress_same moved _ _ HM genome) as HMc.
  assert (EQ : forall p Z, length genome = length p -> sol_predict L mx genome p Z false g = mixing_call L mx Z (compress p genome) false g) by (intros p Z H; apply predict_compress; exact H).
  set (l := compress pool genome) in *. set (l' := compress pool' genome) in *.
  assert (HRc' : Forall (S_Mixing.ready L d) l'). { clearbody l l'. clear - HMc HRc HAc'. induction HMc as [|r r' l l' H HM IH]; [constructor|]. apply Forall_cons_iff in HRc as [R1 R2]. apply Forall_cons_iff in HAc' as [A1 A2]. constructor; [eapply scale_ready; eassumption|apply IH; assumption]. }
  assert (CALL : forall o Z, Forall (S_Mixing.ready L d) o -> Forall (fun x => length x = d) Z -> mixing_call L mx Z o false g = (Ok (map (fun x => match o with [] => 0 | _ => predict_one L mx d o x end) Z), g)).
  { intros o Z HO HZ. destruct o as [|r o]; [cbn [mixing_call]; f_equal; f_equal; induction Z; [reflexivity|]; cbn; f_equal; apply IHZ; inversion HZ; assumption|]. cbn [mixing_call]. rewrite HK. cbn [apply_filter]. rewrite (mix_fresh L mx Z _ d HZ HO). reflexivity. }
  exists (fun x => match l with [] => 0 | _ => predict_one L mx d l x end), (fun x => match l' with [] => 0 | _ => predict_one L mx d l' x end). split.
  - intros Z HZ. rewrite !EQ by assumption. split; apply CALL; assumption.
  - intros x Hx. destruct (scale_sums mx d l l' x HMc HAc HRc) as [HDn HNm].
    assert (HPs : forall r, In r l -> 0 < tauq L mx d r). { intros r Hr. rewrite Forall_forall in HRc. destruct (ready_vote L mx d r x (HRc r Hr) Hx) as [Hw _]. apply (HW r _ Hr Hw). }
    destruct (den_zero L mx d l x Hx HRc HPs) as (Z0 & Z1 & Z2). inversion HMc as [E1 E2|r r' t t' H1 H2 E1 E2]; [ring|]. rewrite E1, E2 in *. unfold predict_one.
    assert (HH : qeq (den_at L mx d l' x) 0 = qeq (den_at L mx d l x) 0).
    { destruct (qeq_spec (den_at L mx d l x) 0) as [Z|Z], (qeq_spec (den_at L mx d l' x) 0) as [Z'|Z']; try reflexivity; exfalso.
      - apply Z'. rewrite HDn, Z. field. exact Hk.
      - apply Z. rewrite HDn in Z'. assert (H : den_at L mx d l x == (den_at L mx d l x / (k * k)) * (k * k)) by (field; exact Hk). rewrite H, Z'. ring. }
    rewrite HH. destruct (qeq_spec (den_at L mx d l x) 0) as [Z|Z].
    + assert (HN0 : num_at L mx d l x == 0). { apply Z2. intros z Hz Hc. assert (0 < den_at L mx d l x) by (apply Z1; exists z; auto). lra. } rewrite HNm, HN0. field. exact Hk.
    + rewrite HNm, HDn. field. split; [exact Z|exact Hk].
Qed.
End Scale.

(* ----- the mean model ----- *)
Lemma qofnat_pos {A} (l : list A) : l <> [] -> ~ qofnat (length l) == 0.
Proof. destruct l as [|a l]; [congruence|]. intros _ H. unfold qofnat in H. cbn [length] in H. unfold Qeq in H. cbn in H. lia. Qed.
Lemma qofnat_S n : qofnat (S n) == qofnat n + 1.
Proof. unfold qofnat. rewrite Nat2Z.inj_succ. unfold Qeq. cbn. lia. Qed.
Lemma mean_shift c : follows mean_learner (shift c).
Proof.
  intros X y x HX HL. cbn [mpred train mean_learner]. unfold retargeted. rewrite map_length. assert (HN : y <> []) by (destruct y; [destruct X; [congruence|discriminate]|discriminate]). pose proof (qofnat_pos y HN) as HZ.
  assert (E : qsum (map (shift c) y) == qsum y + c * qofnat (length y)). { clear. unfold qsum, shift. induction y as [|t y IH]; [cbn; unfold qofnat; cbn; ring|]. cbn [map fold_right length]. rewrite IH, qofnat_S. ring. }
  rewrite E. unfold shift. field. exact HZ.
Qed.
Lemma mean_scale k : follows mean_learner (scale k).
Proof.
  intros X y x HX HL. cbn [mpred train mean_learner]. unfold retargeted. rewrite map_length.
  assert (E : qsum (map (scale k) y) == k * qsum y). { clear. unfold qsum, scale. induction y as [|t y IH]; [cbn; ring|]. cbn [map fold_right]. rewrite IH. ring. }
  rewrite E. unfold scale, Qdiv. ring.
Qed.
Lemma mean_sound : sound_fitness mean_learner.
Proof. intros m e e' H. cbn. rewrite H. reflexivity. Qed.
Lemma plain_weight L (r : rule L) a e d w : att r = Some a -> error a = Fin e -> 0 < e -> 0 < experience a -> has_weight L (mkMixing KeepAll ExpAsIs 1) d r w -> 0 < w.
Proof.
  intros Ha He Hp Hx (b & n & Hb & Hn & HH). rewrite Ha in Hb. injection Hb as <-. cbn in Hn. cbn [mweight] in HH. destruct HH as [(e' & He' & Hw)|[He' _]]; [|congruence]. rewrite He in He'. injection He' as <-. rewrite Hw.
  assert (0 < n) by lra. apply Qlt_shift_div_l; [exact Hp|]. lra.
Qed.

(* ----- examples ----- *)
Definition three_rows : matrix := [[0]; [1]; [2]].
Definition two_boxes : list matching := [mkMatching OrderedBound [(0, 1)]; mkMatching OrderedBound [(0, 2)]].
Definition plain_mixing : mixing := mkMixing KeepAll ExpAsIs 1.
Definition learned_from (X : matrix) (y : targets) (m : matching) : rule mean_learner := snd (rule_fit mean_learner (fresh_rule mean_learner m) X y).
Lemma three_table a b c : table 1 three_rows [a; b; c].
Proof. split; [repeat constructor|reflexivity]. Qed.
Lemma boxes_dim : Forall (fun m => length (bnd m) = 1%nat) two_boxes.
Proof. repeat constructor. Qed.
Lemma boxes_match : Forall (fun m => exists x, In x three_rows /\ covers m x) two_boxes.
Proof. repeat (apply Forall_cons; [exists [0]; split; [left; reflexivity|constructor; [split; cbn; lra|constructor]]|]). constructor. Qed.
Lemma boxes_learned a b c : Forall2 (fitted_from mean_learner three_rows [a; b; c]) two_boxes (map (learned_from three_rows [a; b; c]) two_boxes).
Proof. repeat constructor. Qed.
Lemma learned_weight (X : matrix) (y : targets) (m : matching) w : length (bnd m) = 1%nat -> table 1 X y -> (exists x, In x X /\ covers m x) -> has_weight mean_learner plain_mixing 1 (learned_from X y m) w -> 0 < w.
Proof.
  intros Hd HT (x & Hx & Hc) HW. assert (HF : Forall (fun x => length x = length (bnd m)) X) by (rewrite Hd; apply HT). assert (HI : exists p, In p (combine X y) /\ inside_of m p = true).
  { destruct (In_nth X x [] Hx) as (i & Hi & E). exists (x, nth i y 0). assert (HP : In (x, nth i y 0) (combine X y)). { rewrite <- E. rewrite <- (combine_nth X y i [] 0) by (symmetry; apply HT). apply nth_In. rewrite combine_length. destruct HT as [_ HL]. lia. }
    split; [exact HP|]. apply (inside_covers m X y); auto. }
  destruct HI as (p & Hp & HI). unfold learned_from in HW. rewrite (fit_samples mean_learner m X y) in HW by (try exact HF; apply HT). cbn [snd] in HW.
  assert (HN : filter (inside_of m) (combine X y) <> []) by (intros E; assert (In p (filter (inside_of m) (combine X y))) by (apply filter_In; auto); rewrite E in *; contradiction).
  match type of HW with has_weight _ _ _ (from_samples _ _ ?s ?b) _ => destruct (sampled_att mean_learner m s b HN) as (a & A1 & _ & A3 & A4); eapply (plain_weight _ _ a _ 1 w A1 A3); [| |exact HW] end.
  - destruct (floor_error_spec (mse (map snd (filter (inside_of m) (combine X y))) (map (mpred mean_learner (train mean_learner (map fst (filter (inside_of m) (combine X y))) (map snd (filter (inside_of m) (combine X y))))) (map fst (filter (inside_of m) (combine X y)))))) as (_ & H & _). eapply Qlt_le_trans; [|exact H]. reflexivity.
  - rewrite A4. destruct (filter (inside_of m) (combine X y)); [congruence|]. unfold qofnat, Qlt. cbn. lia.
Qed.
Lemma boxes_weights a b c r w : In r (map (learned_from three_rows [a; b; c]) two_boxes) -> has_weight mean_learner plain_mixing 1 r w -> 0 < w.
Proof.
  intros Hr HW. apply in_map_iff in Hr as (m & <- & Hm). pose proof boxes_dim as HD. pose proof boxes_match as HM. rewrite Forall_forall in HD, HM. eapply learned_weight; [exact (HD m Hm)|apply three_table|exact (HM m Hm)|exact HW].
Qed.
