(* The same learning problem in another form. *)
From Coq Require Import Lia Permutation.
From Verif Require Import PyNum PyList PyMon PyRng L_Num L_List M_Matching S_Matching L_Matching M_Rule S_Rule L_Rule L_RuleProps M_Mixing S_Mixing L_Mixing L_MixingProps S_Discovery S_Invariance.
From Coq Require Import Lqa.

(* ----- values equal as numbers ----- *)
Lemma qle_same a b c e : a == c -> b == e -> qle a b = qle c e.
Proof. intros H1 H2. destruct (qle_spec a b), (qle_spec c e); auto; lra. Qed.
Lemma qlt_same a b c e : a == c -> b == e -> qlt a b = qlt c e.
Proof. intros H1 H2. destruct (qlt_spec a b), (qlt_spec c e); auto; lra. Qed.
Lemma qeq_same a b c e : a == c -> b == e -> qeq a b = qeq c e.
Proof. intros H1 H2. destruct (qeq_spec a b), (qeq_spec c e); auto; lra. Qed.
Lemma qmax_same a b c e : a == c -> b == e -> qmax a b == qmax c e.
Proof. intros H1 H2. unfold qmax. rewrite (qle_same a b c e H1 H2). destruct (qle c e); assumption. Qed.
Lemma qmin_same a b c e : a == c -> b == e -> qmin a b == qmin c e.
Proof. intros H1 H2. unfold qmin. rewrite (qle_same a b c e H1 H2). destruct (qle c e); assumption. Qed.
Lemma nlt_same a b c e : same_num a c -> same_num b e -> nlt a b = nlt c e.
Proof. destruct a, c; intros H1; try contradiction; destruct b, e; intros H2; try contradiction; cbn; auto. apply qlt_same; assumption. Qed.
Lemma nle_same a b c e : same_num a c -> same_num b e -> nle a b = nle c e.
Proof. destruct a, c; intros H1; try contradiction; destruct b, e; intros H2; try contradiction; cbn; auto. apply qle_same; assumption. Qed.
Lemma nadd_same a b c e : same_num a c -> same_num b e -> same_num (nadd a b) (nadd c e).
Proof. destruct a, c; intros H1; try contradiction; destruct b, e; intros H2; try contradiction; cbn in *; auto. lra. Qed.
Lemma ndiv_same a b c e : same_num a c -> same_num b e -> same_num (ndiv a b) (ndiv c e).
Proof.
  destruct a as [p| | |], c as [q| | |]; intros H1; try contradiction; destruct b as [x| | |], e as [y| | |]; intros H2; try contradiction; cbn in *; auto; try reflexivity.
  - rewrite (qeq_same x 0 y 0 H2) by reflexivity. rewrite (qeq_same p 0 q 0 H1) by reflexivity. rewrite (qlt_same 0 p 0 q (Qeq_refl 0) H1).
    destruct (qeq y 0); [destruct (qeq q 0); [exact I|destruct (qlt 0 q); exact I]|]. cbn. rewrite H1, H2. reflexivity.
  - rewrite (qlt_same x 0 y 0 H2) by reflexivity. destruct (qlt y 0); exact I.
  - rewrite (qlt_same x 0 y 0 H2) by reflexivity. destruct (qlt y 0); exact I.
Qed.
Lemma is_fin_same a b : same_num a b -> is_fin a = is_fin b.
Proof. destruct a, b; cbn; auto; intros []. Qed.
Lemma floor_same a b : a == b -> floor_error a == floor_error b.
Proof. intros H. apply qmax_same; [exact H|reflexivity]. Qed.
Lemma fold_nadd_same l l' : Forall2 same_num l l' -> forall a b, same_num a b -> same_num (fold_left nadd l a) (fold_left nadd l' b).
Proof. induction 1; cbn; auto. intros a b Hab. apply IHForall2. apply nadd_same; assumption. Qed.
Lemma qsum_same l l' : Forall2 Qeq l l' -> qsum l == qsum l'.
Proof. unfold qsum. induction 1 as [|a b l l' H1 H2 IH]; cbn [fold_right]; [reflexivity|]. rewrite H1, IH. reflexivity. Qed.
Lemma qsum_map_perm {A} (f : A -> Q) l m : Permutation l m -> qsum (map f l) == qsum (map f m).
Proof. intros H. apply L_MixingProps.qsum_perm. apply Permutation_map. exact H. Qed.
Lemma qsum_map_ext {A} (f g : A -> Q) l : (forall a, In a l -> f a == g a) -> qsum (map f l) == qsum (map g l).
Proof. intros H. apply qsum_same. induction l as [|a l IH]; cbn; constructor; [apply H; left; reflexivity|]. apply IH. intros b Hb. apply H. right. exact Hb. Qed.

(* ----- lists ----- *)
Lemma filter_perm {A} (f : A -> bool) l m : Permutation l m -> Permutation (filter f l) (filter f m).
Proof. induction 1; cbn; auto; [destruct (f x); auto|destruct (f x), (f y); auto; apply perm_swap|eapply perm_trans; eassumption]. Qed.
Lemma filter_map_swap {A B} (f : A -> B) (P : A -> bool) (P' : B -> bool) l : (forall a, In a l -> P' (f a) = P a) -> filter P' (map f l) = map f (filter P l).
Proof.
  induction l as [|a l IH]; intros H; [reflexivity|]. cbn [map filter]. rewrite (H a) by (left; reflexivity).
  destruct (P a); cbn [map]; rewrite IH by (intros b Hb; apply H; right; exact Hb); reflexivity.
Qed.
Lemma take_pairs (f : row -> bool) (X : matrix) (y : targets) : length y = length X ->
  compress X (map f X) = map fst (filter (fun p => f (fst p)) (combine X y)) /\ compress y (map f X) = map snd (filter (fun p => f (fst p)) (combine X y)).
Proof.
  revert y. induction X as [|x X IH]; intros [|t y] H; try discriminate; [split; reflexivity|]. injection H as H. destruct (IH y H) as [H1 H2].
  cbn [map compress combine filter fst]. destruct (f x); cbn [map fst snd]; rewrite H1, H2; split; reflexivity.
Qed.
Lemma map2_pairs {A} (f : A -> Q) (g : A -> Q) l : map2 (fun a b => (a - b) * (a - b)) (map f l) (map g l) = map (fun p => (f p - g p) * (f p - g p)) l.
Proof. induction l as [|p l IH]; [reflexivity|]. cbn. rewrite IH. reflexivity. Qed.
Lemma kept_filter {A} (P : A -> Prop) (f : A -> bool) l k : (forall a, In a l -> (f a = true <-> P a)) -> kept P l k -> filter f l = k.
Proof.
  intros H K. induction K as [|x l k HP K IH|x l k HP K IH]; [reflexivity| |]; cbn [filter].
  - rewrite (proj2 (H x (or_introl eq_refl)) HP). f_equal. apply IH. intros a Ha. apply H. right. exact Ha.
  - destruct (f x) eqn:E; [exfalso; apply HP; apply (H x (or_introl eq_refl)); exact E|]. apply IH. intros a Ha. apply H. right. exact Ha.
Qed.
Lemma in_combine_row (X : matrix) (y : targets) d p : Forall (fun x => length x = d) X -> In p (combine X y) -> length (fst p) = d.
Proof. intros H Hp. destruct p as [x t]. apply in_combine_l in Hp. rewrite Forall_forall in H. exact (H x Hp). Qed.
Lemma existsb_filter {A} (f : A -> bool) l : existsb (fun b => b) (map f l) = negb (match filter f l with [] => true | _ => false end).
Proof. induction l as [|a l IH]; [reflexivity|]. cbn [map existsb filter]. destruct (f a); [reflexivity|]. exact IH. Qed.

Section Rules.
Variable L : learner.
(* a rule fitted from scratch, in terms of the matched samples *)
Definition from_samples (m : matching) (s : list (row * Q)) (ms : list bool) : rule L :=
  match s with
  | [] => mkRule m None (Some (unmatched ms))
  | _ => let mdl := train L (map fst s) (map snd s) in
         let e := floor_error (mse (map snd s) (map (mpred L mdl) (map fst s))) in
         mkRule m (Some mdl) (Some (mkAtts true (Fin e) (rfitness L m e) (qofnat (length s)) (map (mpred L mdl) (map fst s)) ms))
  end.
Definition inside_of (m : matching) (p : row * Q) : bool := row_matches (mt m) (bnd m) (fst p).
Lemma inside_covers m (X : matrix) (y : targets) p : Forall (fun x => length x = length (bnd m)) X -> In p (combine X y) -> (inside_of m p = true <-> covers m (fst p)).
Proof. intros HF Hp. apply row_matches_covers. symmetry. eapply in_combine_row; eassumption. Qed.
Lemma fit_samples m X y : Forall (fun x => length x = length (bnd m)) X -> length y = length X ->
  rule_fit L (fresh_rule L m) X y = (Ok tt, from_samples m (filter (inside_of m) (combine X y)) (matches m X)).
Proof.
  intros HF HL. rewrite rule_fit_scratch by (cbn; auto; split; assumption). f_equal. unfold scratch. cbn [cond fresh_rule rmodel].
  destruct (take_pairs (row_matches (mt m) (bnd m)) X y HL) as [H1 H2].
  assert (E : existsb (fun b => b) (matches m X) = negb (match filter (inside_of m) (combine X y) with [] => true | _ => false end)).
  { unfold matches. rewrite existsb_filter. f_equal. clear - HL. revert y HL. induction X as [|x X IH]; intros [|t y] HL; try discriminate; [reflexivity|]. injection HL as HL.
    cbn [filter combine inside_of fst]. unfold inside_of at 1. cbn [fst]. destruct (row_matches (mt m) (bnd m) x); [reflexivity|]. apply IH. exact HL. }
  fold (matches m X) in H1, H2. fold (inside_of m) in H1, H2. change (filter (fun p => row_matches (mt m) (bnd m) (fst p)) (combine X y)) with (filter (inside_of m) (combine X y)) in *.
  rewrite E. unfold trained.
  rewrite H1, H2. destruct (filter (inside_of m) (combine X y)) as [|p s] eqn:EF; [reflexivity|]. cbn [negb fst snd]. unfold from_samples. cbv zeta. cbn [map length]. rewrite ?map_length. reflexivity.
Qed.

Lemma matched_only m X y X' y' k : Forall (fun x => length x = length (bnd m)) X -> length y = length X -> Forall (fun x => length x = length (bnd m)) X' -> length y' = length X' ->
  kept (fun p => covers m (fst p)) (combine X y) k -> kept (fun p => covers m (fst p)) (combine X' y') k ->
  exists r r' a a', rule_fit L (fresh_rule L m) X y = (Ok tt, r) /\ rule_fit L (fresh_rule L m) X' y' = (Ok tt, r') /\ cond r = cond r' /\ rmodel r = rmodel r' /\ att r = Some a /\ att r' = Some a' /\
    is_fitted a = is_fitted a' /\ error a = error a' /\ fitness a = fitness a' /\ experience a = experience a' /\ M_Rule.pred a = M_Rule.pred a'.
Proof.
  intros HF HL HF' HL' K K'. rewrite (fit_samples m X y HF HL), (fit_samples m X' y' HF' HL').
  rewrite (kept_filter _ (inside_of m) _ _ (fun p Hp => inside_covers m X y p HF Hp) K), (kept_filter _ (inside_of m) _ _ (fun p Hp => inside_covers m X' y' p HF' Hp) K').
  destruct k as [|p k]; unfold from_samples; do 4 eexists; repeat split; reflexivity.
Qed.

(* ----- filters ----- *)
Lemma insert_same {A B} (R : A -> B -> Prop) (ltA : A -> A -> bool) (ltB : B -> B -> bool) : (forall a b a' b', R a a' -> R b b' -> ltA a b = ltB a' b') -> forall l l', Forall2 R l l' -> forall x x', R x x' -> Forall2 R (insert ltA x l) (insert ltB x' l').
Proof. intros H l l' HR. induction HR as [|y y' l l' H1 H2 IH]; intros x x' Hx; cbn [insert]; [constructor; [exact Hx|constructor]|]. rewrite (H y x y' x' H1 Hx). destruct (ltB y' x'); constructor; auto. Qed.
Lemma sort_same {A B} (R : A -> B -> Prop) (ltA : A -> A -> bool) (ltB : B -> B -> bool) : (forall a b a' b', R a a' -> R b b' -> ltA a b = ltB a' b') -> forall l l', Forall2 R l l' -> Forall2 R (PyList.sort ltA l) (PyList.sort ltB l').
Proof. intros H l l' HR. induction HR; cbn [PyList.sort]; [constructor|]. apply insert_same; assumption. Qed.
Lemma skipn_same {A B} (R : A -> B -> Prop) l l' : Forall2 R l l' -> forall k, Forall2 R (skipn k l) (skipn k l').
Proof. induction 1; intros [|k]; cbn; auto. Qed.
Lemma nth_same {A B} (R : A -> B -> Prop) l l' : Forall2 R l l' -> forall i x x', R x x' -> R (nth i l x) (nth i l' x').
Proof. induction 1; intros [|i] a a' Ha; cbn; auto. Qed.
Lemma remove_same {A B} (R : A -> B -> Prop) l l' : Forall2 R l l' -> forall i, Forall2 R (remove_nth i l) (remove_nth i l').
Proof. induction 1; intros [|i]; cbn; auto. Qed.
Lemma take_out_same {A B} (R : A -> B -> Prop) k : forall l l' g, Forall2 R l l' -> exists o o' g', take_out k l g = (o, g') /\ take_out k l' g = (o', g') /\ Forall2 R o o'.
Proof.
  induction k as [|k IH]; intros l l' g H; cbn [take_out]; [do 3 eexists; split; [reflexivity|split; [reflexivity|constructor]]|].
  destruct H as [|x x' l l' H1 H2]; [do 3 eexists; split; [reflexivity|split; [reflexivity|constructor]]|].
  destruct (draw g) as [q g1]. assert (HL : length (x :: l) = length (x' :: l')) by (cbn; f_equal; eapply L_List.Forall2_len; exact H2). rewrite HL. set (i := index_of _ q).
  assert (HF : Forall2 R (x :: l) (x' :: l')) by (constructor; assumption).
  destruct (IH _ _ g1 (remove_same R _ _ HF i)) as (o & o' & g' & E1 & E2 & HO). rewrite E1, E2. do 3 eexists. split; [reflexivity|]. split; [reflexivity|]. constructor; [|exact HO]. apply nth_same; assumption.
Qed.
Lemma sample_same {A B} (R : A -> B -> Prop) k l l' g : Forall2 R l l' -> match sample l k g, sample l' k g with (Ok o, g1), (Ok o', g2) => g1 = g2 /\ Forall2 R o o' | (Raise e, g1), (Raise e', g2) => e = e' /\ g1 = g2 | _, _ => False end.
Proof.
  intros H. unfold sample. rewrite (L_List.Forall2_len _ _ _ H). destruct (Nat.ltb (length l') k); [split; reflexivity|]. destruct (take_out_same R k l l' g H) as (o & o' & g' & E1 & E2 & HO). rewrite E1, E2. split; [reflexivity|exact HO].
Qed.
Lemma compress_same {A B} (R : A -> B -> Prop) l l' : Forall2 R l l' -> forall k, Forall2 R (compress l k) (compress l' k).
Proof. induction 1; intros [|b k]; cbn; auto. destruct b; auto. Qed.
Lemma forallb_same {A B} (R : A -> B -> Prop) (f : A -> bool) (g : B -> bool) l l' : (forall a b, R a b -> f a = g b) -> Forall2 R l l' -> forallb f l = forallb g l'.
Proof. intros H HR. induction HR as [|a b l l' H1 H2 IH]; [reflexivity|]. cbn. rewrite (H a b H1), IH. reflexivity. Qed.
Lemma map_same {A B C} (R : A -> B -> Prop) (f : A -> C) (g : B -> C) l l' : (forall a b, R a b -> f a = g b) -> Forall2 R l l' -> map f l = map g l'.
Proof. intros H HR. induction HR as [|a b l l' H1 H2 IH]; [reflexivity|]. cbn. rewrite (H a b H1), IH. reflexivity. Qed.
Section Filters.
Variable R : rule L -> rule L -> Prop.
Hypothesis HR : forall r r', R r r' -> same_values (att r) (att r').
Lemma same_fitness r r' : R r r' -> same_num (fit_or_nan L r) (fit_or_nan L r').
Proof. intros H. pose proof (HR _ _ H) as HV. unfold fit_or_nan. destruct (att r), (att r'); try contradiction; [apply HV|exact I]. Qed.
Lemma fitness_same rs rs' : Forall2 R rs rs' -> match rmap (fitness_of L) rs, rmap (fitness_of L) rs' with Ok fs, Ok fs' => Forall2 same_num fs fs' | Raise e, Raise e' => e = e' | _, _ => False end.
Proof.
  induction 1 as [|r r' rs rs' H1 H2 IH]; cbn [rmap]; [constructor|].
  assert (H3 : match fitness_of L r, fitness_of L r' with Ok a, Ok b => same_num a b | Raise e, Raise e' => e = e' | _, _ => False end).
  { pose proof (HR _ _ H1) as HV. unfold fitness_of, get_att. destruct (att r), (att r'); try contradiction; cbn; [apply HV|reflexivity]. }
  destruct (fitness_of L r), (fitness_of L r'); try contradiction; cbn [rbind]; [|exact H3].
  destruct (rmap (fitness_of L) rs), (rmap (fitness_of L) rs'); try contradiction; cbn [rbind]; [|exact IH]. constructor; [exact H3|exact IH].
Qed.
Lemma filter_same f rs rs' g : Forall2 R rs rs' -> match apply_filter L f rs g, apply_filter L f rs' g with (Ok o, g1), (Ok o', g2) => g1 = g2 /\ Forall2 R o o' | (Raise e, g1), (Raise e', g2) => e = e' /\ g1 = g2 | _, _ => False end.
Proof.
  intros H. destruct f as [|n|n|n]; cbn [apply_filter].
  - split; [reflexivity|exact H].
  - pose proof (fitness_same rs rs' H) as HF. destruct (rmap (fitness_of L) rs) as [fs|e], (rmap (fitness_of L) rs') as [fs'|e']; try contradiction; cbn [rbind]; [|split; [exact HF|reflexivity]]. split; [reflexivity|].
    unfold last_n. destruct (Nat.eqb n 0).
    + apply sort_same; [|exact H]. intros a b a' b' H1 H2. apply nlt_same; apply same_fitness; assumption.
    + rewrite !sort_length, (L_List.Forall2_len _ _ _ H). apply skipn_same. apply sort_same; [|exact H]. intros a b a' b' H1 H2. apply nlt_same; apply same_fitness; assumption.
  - rewrite (L_List.Forall2_len _ _ _ H). apply sample_same. exact H.
  - pose proof (fitness_same rs rs' H) as HF. destruct (rmap (fitness_of L) rs) as [fs|e], (rmap (fitness_of L) rs') as [fs'|e']; try contradiction; [|split; [exact HF|reflexivity]].
    assert (HT : same_num (fold_left nadd fs (Fin 0)) (fold_left nadd fs' (Fin 0))) by (apply fold_nadd_same; [exact HF|reflexivity]).
    set (t := fold_left nadd fs (Fin 0)) in *. set (t' := fold_left nadd fs' (Fin 0)) in *. clearbody t t'.
    assert (HW : Forall2 same_num (map (fun x => ndiv x t) fs) (map (fun x => ndiv x t') fs')).
    { clear - HF HT. induction HF; cbn; constructor; auto. apply ndiv_same; assumption. }
    rewrite (forallb_same same_num (nle (Fin 0)) (nle (Fin 0)) _ _ (fun a b Hab => nle_same (Fin 0) a (Fin 0) b (Qeq_refl 0) Hab) HW), (forallb_same same_num is_fin is_fin _ _ is_fin_same HW).
    destruct (forallb _ _ && forallb _ _); [|split; reflexivity].
    rewrite (map_same same_num (nlt (Fin 0)) (nlt (Fin 0)) _ _ (fun a b Hab => nlt_same (Fin 0) a (Fin 0) b (Qeq_refl 0) Hab) HW), (L_List.Forall2_len _ _ _ H). apply sample_same. apply compress_same. exact H.
Qed.

End Filters.

Section View.
Variables (v : row -> row) (d : nat).
Hypothesis HI : indifferent L v d.
Notation same := (same_rule L v d).
Notation view := (fun p : row * Q => (v (fst p), snd p)).

Lemma same_inside m m' (s : list (row * Q)) : same_box v d m m' -> Forall (fun p => length (fst p) = d) s -> forall p, In p s -> inside_of m' (view p) = inside_of m p.
Proof.
  intros HB HF p Hp. rewrite Forall_forall in HF. specialize (HF p Hp). unfold inside_of. cbn [fst].
  pose proof (row_matches_covers m (fst p)) as H1. pose proof (row_matches_covers m' (v (fst p))) as H2.
  rewrite (box_dim _ _ _ _ HB) in H1. rewrite (box_dim' _ _ _ _ HB) in H2. specialize (H1 (eq_sym HF)). specialize (H2 (eq_sym (ind_length _ _ _ HI _ HF))).
  pose proof (box_covers _ _ _ _ HB (fst p) HF) as H3. destruct (row_matches (mt m') _ _), (row_matches (mt m) _ _); auto; exfalso; intuition congruence.
Qed.
Lemma mse_pairs (g : row -> Q) (s : list (row * Q)) : mse (map snd s) (map g (map fst s)) = qsum (map (fun p => (snd p - g (fst p)) * (snd p - g (fst p))) s) / qofnat (length s).
Proof. unfold mse. rewrite map_map, map2_pairs, map_length. reflexivity. Qed.
Lemma mse_seen (g g' : row -> Q) (s s' : list (row * Q)) : Forall (fun p => length (fst p) = d) s -> (forall x, length x = d -> g' (v x) == g x) -> seen v s s' -> mse (map snd s) (map g (map fst s)) == mse (map snd s') (map g' (map fst s')).
Proof.
  intros HF HG HS. rewrite (mse_pairs g s), (mse_pairs g' s'). assert (E : length s = length s') by (apply Permutation_length in HS; rewrite map_length in HS; exact HS). rewrite E.
  assert (E2 : qsum (map (fun p => (snd p - g (fst p)) * (snd p - g (fst p))) s) == qsum (map (fun p => (snd p - g' (fst p)) * (snd p - g' (fst p))) s')); [|rewrite E2; reflexivity].
  rewrite <- (qsum_map_perm _ _ _ HS), map_map. apply qsum_map_ext. intros p Hp. cbn [fst snd]. rewrite Forall_forall in HF. rewrite (HG _ (HF p Hp)). reflexivity.
Qed.
Lemma same_fit m m' X y X' y' : table d X y -> table d X' y' -> seen v (combine X y) (combine X' y') -> same_box v d m m' ->
  exists r r', rule_fit L (fresh_rule L m) X y = (Ok tt, r) /\ rule_fit L (fresh_rule L m') X' y' = (Ok tt, r') /\ same r r'.
Proof.
  intros [HF HL] [HF' HL'] HS HB. rewrite (fit_samples m X y), (fit_samples m' X' y'); auto; try (rewrite ?(box_dim _ _ _ _ HB), ?(box_dim' _ _ _ _ HB); assumption).
  do 2 eexists. split; [reflexivity|]. split; [reflexivity|]. set (s := filter (inside_of m) (combine X y)). set (s' := filter (inside_of m') (combine X' y')).
  assert (HA : Forall (fun p => length (fst p) = d) (combine X y)) by (apply Forall_forall; intros p Hp; exact (in_combine_row X y d p HF Hp)).
  assert (Hs : Forall (fun p => length (fst p) = d) s) by (apply Forall_forall; intros p Hp; apply filter_In in Hp as [Hp _]; rewrite Forall_forall in HA; exact (HA p Hp)).
  assert (HSs : seen v s s').
  { unfold seen, s, s'. rewrite <- (filter_map_swap (fun p : row * Q => (v (fst p), snd p)) (inside_of m) (inside_of m')) by (apply same_inside; assumption). apply filter_perm. exact HS. }
  clearbody s s'. clear - HI HB Hs HSs.
  assert (HLn : length s = length s') by (apply Permutation_length in HSs; rewrite map_length in HSs; exact HSs).
  destruct s as [|p s], s' as [|p' s']; try discriminate.
  - constructor; [exact HB|exact I|]. cbn. repeat split; reflexivity.
  - set (l := p :: s) in *. set (l' := p' :: s') in *. pose proof (ind_model _ _ _ HI l l' Hs HSs) as HM.
    assert (HE : floor_error (mse (map snd l) (map (mpred L (train L (map fst l) (map snd l))) (map fst l))) == floor_error (mse (map snd l') (map (mpred L (train L (map fst l') (map snd l'))) (map fst l')))).
    { apply floor_same. apply mse_seen; assumption. }
    constructor; [exact HB|exact HM|]. cbn [from_samples att same_values M_Rule.is_fitted error M_Rule.fitness experience]. split; [reflexivity|]. split; [exact HE|]. split; [apply (ind_fitness _ _ _ HI); assumption|].
    unfold l, l' in *. rewrite HLn. reflexivity.
Qed.

(* ----- predictions ----- *)
Lemma cap_same l u x y : x == y -> cap l u x == cap l u y.
Proof. intros H. unfold cap. destruct l, u; repeat first [apply qmin_same | apply qmax_same]; auto; reflexivity. Qed.
Lemma calc_same c dim x y : x == y -> calc_exp c dim x == calc_exp c dim y.
Proof. intros H. destruct c; cbn [calc_exp]; [exact H|apply cap_same; exact H|apply cap_same; exact H]. Qed.
Lemma tau_same mx dim r r' : same r r' -> tauq L mx dim r == tauq L mx dim r'.
Proof.
  intros H. pose proof (rule_values _ _ _ _ _ H) as HV. unfold tauq. destruct (att r) as [a|], (att r') as [b|]; try contradiction; [|reflexivity]. destruct HV as (_ & HE & _ & HX).
  pose proof (calc_same (mexp mx) dim _ _ HX) as HC. destruct (error a), (error b); try contradiction; cbn in HE; rewrite HC; try reflexivity. rewrite HE. reflexivity.
Qed.
Lemma hits_same r r' x : same r r' -> length x = d -> hits L r' (v x) = hits L r x.
Proof. intros H Hx. exact (same_inside (cond r) (cond r') [(x, 0)] (rule_box _ _ _ _ _ H) (Forall_cons (x, 0) Hx (Forall_nil _)) (x, 0) (or_introl eq_refl)). Qed.
Lemma guess_same r r' x : same r r' -> length x = d -> guess L r' (v x) == guess L r x.
Proof. intros H Hx. pose proof (rule_model _ _ _ _ _ H) as HM. unfold guess. destruct (rmodel r), (rmodel r'); try contradiction; [exact (HM x Hx)|reflexivity]. Qed.
Lemma one_same mx rs rs' x : Forall2 same rs rs' -> length x = d -> predict_one L mx d rs' (v x) == predict_one L mx d rs x.
Proof.
  intros H Hx. unfold predict_one.
  assert (HN : num_at L mx d rs' (v x) == num_at L mx d rs x).
  { unfold num_at. apply qsum_same. induction H as [|r r' rs rs' H1 H2 IH]; cbn [map]; constructor; [|exact IH]. rewrite (hits_same r r' x H1 Hx), (tau_same mx d r r' H1). destruct (hits L r x); [rewrite (guess_same r r' x H1 Hx)|]; reflexivity. }
  assert (HD : den_at L mx d rs' (v x) == den_at L mx d rs x).
  { unfold den_at. apply qsum_same. clear HN. induction H as [|r r' rs rs' H1 H2 IH]; cbn [map]; constructor; [|exact IH]. rewrite (hits_same r r' x H1 Hx). destruct (hits L r x); [rewrite (tau_same mx d r r' H1)|]; reflexivity. }
  rewrite (qeq_same _ 0 _ 0 HD) by reflexivity. destruct (qeq (den_at L mx d rs x) 0); [rewrite HN; reflexivity|rewrite HN, HD; reflexivity].
Qed.
Lemma ready_same r r' : same r r' -> S_Mixing.ready L d r -> S_Mixing.ready L d r'.
Proof.
  intros H (_ & (a & Ha & He) & mdl & Hm). split; [exact (box_dim' _ _ _ _ (rule_box _ _ _ _ _ H))|]. split.
  - pose proof (rule_values _ _ _ _ _ H) as HV. rewrite Ha in HV. destruct (att r') as [b|] eqn:E; [|contradiction]. exists b. split; [exact E|]. destruct HV as (_ & HE & _). destruct He as [He|(e & He & Hp)]; rewrite He in HE; destruct (error b) as [q| | |]; try contradiction; [left; reflexivity|right].
    cbn in HE. exists q. split; [reflexivity|]. rewrite <- HE. exact Hp.
  - pose proof (rule_model _ _ _ _ _ H) as HM. rewrite Hm in HM. destruct (rmodel r') as [m|]; [exists m; reflexivity|contradiction].
Qed.
Lemma ready_all_same rs rs' : Forall2 same rs rs' -> Forall (S_Mixing.ready L d) rs -> Forall (S_Mixing.ready L d) rs'.
Proof. induction 1 as [|r r' rs rs' H1 H2 IH]; intros HR; inversion HR; subst; constructor; [eapply ready_same; eassumption|auto]. Qed.
(* one function per pool; the two agree on every sample *)
Lemma call_same mx rs rs' g : Forall2 same rs rs' -> Forall (S_Mixing.ready L d) rs ->
  (exists e g', (forall X, Forall (fun x => length x = d) X -> X <> [] -> mixing_call L mx X rs false g = (Raise e, g')) /\ (forall X, Forall (fun x => length x = d) X -> X <> [] -> mixing_call L mx X rs' false g = (Raise e, g'))) \/
  (exists h h' g', (forall X, Forall (fun x => length x = d) X -> mixing_call L mx X rs false g = (Ok (map h X), g')) /\ (forall X, Forall (fun x => length x = d) X -> mixing_call L mx X rs' false g = (Ok (map h' X), g')) /\
    forall x, length x = d -> h' (v x) == h x).
Proof.
  intros H HR. destruct rs as [|r0 rs0]; [inversion H; subst; right; exists (fun _ => 0), (fun _ => 0), g; split; [|split; [|reflexivity]]; intros X _; cbn [mixing_call]; f_equal; f_equal; induction X; cbn; congruence|].
  inversion H as [|? r0' ? rs0' HH1 HH2]; subst. set (l := r0 :: rs0) in *. set (l' := r0' :: rs0') in *. pose proof (filter_same same (rule_values L v d) (mfilter mx) l l' g H) as HF.
  assert (E : forall X, mixing_call L mx X l false g = match apply_filter L (mfilter mx) l g with (Ok o, g') => (mix L mx X o false, g') | (Raise e, g') => (Raise e, g') end) by reflexivity.
  assert (E' : forall X, mixing_call L mx X l' false g = match apply_filter L (mfilter mx) l' g with (Ok o, g') => (mix L mx X o false, g') | (Raise e, g') => (Raise e, g') end) by reflexivity.
  destruct (apply_filter L (mfilter mx) l g) as [[o|e] g1] eqn:E1, (apply_filter L (mfilter mx) l' g) as [[o'|e'] g2] eqn:E2; try contradiction.
  - right. destruct HF as [<- HO]. assert (HRo : Forall (S_Mixing.ready L d) o). { apply Forall_forall. intros r Hr. apply (filter_incl _ _ _ _ _ _ E1) in Hr. rewrite Forall_forall in HR. exact (HR r Hr). }
    exists (predict_one L mx d o), (predict_one L mx d o'), g1. split; [|split].
    + intros X HX. rewrite E, (mix_fresh L mx X o d HX HRo). reflexivity.
    + intros X HX. rewrite E', (mix_fresh L mx X o' d HX (ready_all_same _ _ HO HRo)). reflexivity.
    + intros x Hx. apply one_same; assumption.
  - left. destruct HF as [<- <-]. exists e, g1. split; intros X _ _; [apply E|apply E'].
Qed.
End View.
End Rules.

Section Solutions.
Variable L : learner.
Variables (v : row -> row) (d : nat).
Hypothesis HI : indifferent L v d.
Notation same := (same_rule L v d).
Lemma fit_ready X y m r : table d X y -> length (bnd m) = d -> (exists x, In x X /\ covers m x) -> fitted_from L X y m r -> S_Mixing.ready L d r /\ cond r = m /\ truthful L m X y r.
Proof.
  intros [HF HL] Hd (x & Hx & Hc) E. unfold fitted_from in E. assert (HF' : Forall (fun x => length x = length (bnd m)) X) by (rewrite Hd; exact HF).
  destruct (fit_fresh_truthful L m X y (conj HF' HL)) as (r2 & E2 & HT). rewrite E in E2. injection E2 as <-. split; [|split; [apply (t_cond _ _ _ _ _ HT)|exact HT]].
  rewrite (fit_samples L m X y HF' HL) in E. injection E as <-. destruct (filter (inside_of m) (combine X y)) as [|p s] eqn:Es.
  - exfalso. apply In_nth_error in Hx as (i & Hi). destruct (nth_error y i) as [t|] eqn:Ht.
    + assert (Hp : In (x, t) (combine X y)). { clear - Hi Ht. revert i y Hi Ht. induction X as [|a X IH]; intros [|i] [|b y] H1 H2; try discriminate; cbn in *; [left; congruence|right; eapply IH; eassumption]. }
      assert (Hin : In (x, t) (filter (inside_of m) (combine X y))) by (apply filter_In; split; [exact Hp|]; apply (inside_covers m X y (x, t) HF' Hp); exact Hc). rewrite Es in Hin. destruct Hin.
    + apply nth_error_None in Ht. assert (i < length X)%nat by (apply nth_error_Some; congruence). lia.
  - unfold from_samples. split; [exact Hd|]. split; [|eexists; reflexivity]. eexists. split; [reflexivity|]. right. eexists. split; [reflexivity|]. unfold floor_error.
    match goal with |- 0 < qmax ?a ?b => unfold qmax; destruct (qle_spec a b); lra end.
Qed.
Lemma pools_same ms ms' pool pool' X y X' y' : table d X y -> table d X' y' -> seen v (combine X y) (combine X' y') -> Forall2 (same_box v d) ms ms' ->
  Forall2 (fitted_from L X y) ms pool -> Forall2 (fitted_from L X' y') ms' pool' -> Forall2 same pool pool'.
Proof.
  intros HT HT' HS HB. revert pool pool'. induction HB as [|m m' ms ms' H1 H2 IH]; intros pool pool' HP HP'; inversion HP; inversion HP'; subst; constructor; [|apply IH; assumption].
  destruct (same_fit L v d HI m m' X y X' y' HT HT' HS H1) as (r & r' & E & E' & HR). unfold fitted_from in *. congruence.
Qed.
Lemma pool_ready X y ms pool : table d X y -> Forall (fun m => length (bnd m) = d) ms -> Forall (fun m => exists x, In x X /\ covers m x) ms -> Forall2 (fitted_from L X y) ms pool ->
  Forall (S_Mixing.ready L d) pool /\ Forall (fun r => truthful L (cond r) X y r /\ Forall (fun x => length x = length (bnd (cond r))) X) pool.
Proof.
  intros HT HD HC H. induction H as [|m r ms pool H1 H2 IH]; [split; constructor|]. apply Forall_cons_iff in HD as [D1 D2]. apply Forall_cons_iff in HC as [C1 C2]. destruct IH as [IH1 IH2]; auto.
  destruct (fit_ready X y m r HT) as (A & B & C); auto. split; constructor; auto. rewrite B. split; [exact C|]. rewrite D1. apply HT.
Qed.
Lemma seen_covered ms ms' X (y : targets) X' (y' : targets) : length y = length X -> length y' = length X' -> Forall (fun x => length x = d) X -> seen v (combine X y) (combine X' y') -> Forall2 (same_box v d) ms ms' -> Forall (fun m => exists x, In x X /\ covers m x) ms -> Forall (fun m => exists x, In x X' /\ covers m x) ms'.
Proof.
  intros HL HL' HF HS HB HC. induction HB as [|m m' ms ms' H1 H2 IH]; [constructor|]. inversion HC as [|? ? (x & Hx & Hcx) HC']; subst. constructor; [|apply IH; assumption].
  exists (v x). rewrite Forall_forall in HF. split; [|apply (box_covers _ _ _ _ H1); auto].
  apply In_nth_error in Hx as (i & Hi). destruct (nth_error y i) as [t|] eqn:Ht; [|apply nth_error_None in Ht; assert (i < length X)%nat by (apply nth_error_Some; congruence); lia].
  assert (Hp : In (x, t) (combine X y)). { clear - Hi Ht. revert i y Hi Ht. induction X as [|a X IH]; intros [|i] [|b y] H1 H2; try discriminate; cbn in *; [left; congruence|right; eapply IH; eassumption]. }
  assert (Hv : In (v x, t) (combine X' y')) by (eapply Permutation_in; [exact HS|]; apply in_map_iff; exists (x, t); split; [reflexivity|exact Hp]). apply in_combine_l in Hv. exact Hv.
Qed.
Lemma mse_rows (h : row -> Q) X y : length y = length X -> mse y (map h X) = mse (map snd (combine X y)) (map h (map fst (combine X y))).
Proof.
  intros HL. f_equal.
  - revert y HL. induction X as [|x X IH]; intros [|t y] HL; try discriminate; [reflexivity|]. cbn. f_equal. apply IH. injection HL as HL. exact HL.
  - f_equal. revert y HL. induction X as [|x X IH]; intros [|t y] HL; try discriminate; [reflexivity|]. cbn. f_equal. apply IH. injection HL as HL. exact HL.
Qed.
Lemma predictions_same ms ms' pool pool' genome mx X y X' y' g :
  table d X y -> table d X' y' -> seen v (combine X y) (combine X' y') -> Forall2 (same_box v d) ms ms' -> Forall (fun m => exists x, In x X /\ covers m x) ms ->
  Forall2 (fitted_from L X y) ms pool -> Forall2 (fitted_from L X' y') ms' pool' -> length genome = length pool ->
  (exists e g', (forall Z, Forall (fun x => length x = d) Z -> Z <> [] -> sol_predict L mx genome pool Z false g = (Raise e, g')) /\ (forall Z, Forall (fun x => length x = d) Z -> Z <> [] -> sol_predict L mx genome pool' Z false g = (Raise e, g'))) \/
  (exists h h' g', (forall Z, Forall (fun x => length x = d) Z -> sol_predict L mx genome pool Z false g = (Ok (map h Z), g')) /\ (forall Z, Forall (fun x => length x = d) Z -> sol_predict L mx genome pool' Z false g = (Ok (map h' Z), g')) /\
    forall x, length x = d -> h' (v x) == h x).
Proof.
  intros HT HT' HS HB HC HP HP' HG. pose proof (pools_same _ _ _ _ _ _ _ _ HT HT' HS HB HP HP') as HPP.
  assert (HD : Forall (fun m => length (bnd m) = d) ms) by (clear - HB; induction HB as [|m m' ms ms' H1 H2 IH]; constructor; [apply (box_dim _ _ _ _ H1)|exact IH]).
  destruct (pool_ready X y ms pool HT HD HC HP) as [HR _].
  assert (HG' : length genome = length pool') by (rewrite HG; eapply L_List.Forall2_len; exact HPP).
  assert (E : forall Z, sol_predict L mx genome pool Z false g = mixing_call L mx Z (compress pool genome) false g) by (intros Z; unfold sol_predict, subpopulation; rewrite HG, Nat.eqb_refl; reflexivity).
  assert (E' : forall Z, sol_predict L mx genome pool' Z false g = mixing_call L mx Z (compress pool' genome) false g) by (intros Z; unfold sol_predict, subpopulation; rewrite HG', Nat.eqb_refl; reflexivity).
  assert (HRc : Forall (S_Mixing.ready L d) (compress pool genome)) by (apply Forall_forall; intros r Hr; apply compress_In in Hr; rewrite Forall_forall in HR; exact (HR r Hr)).
  destruct (call_same L v d HI mx _ _ g (compress_same same _ _ HPP genome) HRc) as [(e & g' & A & B)|(h & h' & g' & A & B & C)]; [left; exists e, g'|right; exists h, h', g'].
  - split; intros Z H1 H2; [rewrite E; apply A|rewrite E'; apply B]; assumption.
  - split; [|split; [|exact C]]; intros Z HZ; [rewrite E; apply A|rewrite E'; apply B]; assumption.
Qed.
Lemma cached ms pool genome mx X y g : table d X y -> Forall (fun m => length (bnd m) = d) ms -> Forall (fun m => exists x, In x X /\ covers m x) ms -> Forall2 (fitted_from L X y) ms pool -> length genome = length pool ->
  sol_predict L mx genome pool X true g = sol_predict L mx genome pool X false g.
Proof.
  intros HT HD HC HP HG. destruct (pool_ready X y ms pool HT HD HC HP) as [_ HTr]. unfold sol_predict, subpopulation. rewrite HG, Nat.eqb_refl. cbn [assert_ rbind].
  apply (cache_agrees L mx X y); [apply HT|]. apply Forall_forall. intros r Hr. apply compress_In in Hr. rewrite Forall_forall in HTr. exact (HTr r Hr).
Qed.
Lemma solutions_same ms ms' pool pool' genome mx sfit X y X' y' g : (forall e e' c n, e == e' -> same_num (sfit e c n) (sfit e' c n)) ->
  table d X y -> table d X' y' -> X <> [] -> seen v (combine X y) (combine X' y') -> Forall2 (same_box v d) ms ms' -> Forall (fun m => exists x, In x X /\ covers m x) ms ->
  Forall2 (fitted_from L X y) ms pool -> Forall2 (fitted_from L X' y') ms' pool' -> length genome = length pool ->
  match sol_fit L mx sfit genome pool X y g, sol_fit L mx sfit genome pool' X' y' g with
  | (Ok a, g1), (Ok a', g2) => same_measures a a' /\ g1 = g2 | (Raise e, g1), (Raise e', g2) => e = e' /\ g1 = g2 | _, _ => False end.
Proof.
  intros Hsf HT HT' HN HS HB HC HP HP' HG. pose proof (pools_same _ _ _ _ _ _ _ _ HT HT' HS HB HP HP') as HPP.
  assert (HD : Forall (fun m => length (bnd m) = d) ms) by (clear - HB; induction HB as [|m m' ms ms' H1 H2 IH]; constructor; [apply (box_dim _ _ _ _ H1)|exact IH]).
  assert (HD' : Forall (fun m => length (bnd m) = d) ms') by (clear - HB; induction HB as [|m m' ms ms' H1 H2 IH]; constructor; [apply (box_dim' _ _ _ _ H1)|exact IH]).
  assert (HC' : Forall (fun m => exists x, In x X' /\ covers m x) ms') by (apply (seen_covered ms ms' X y X' y'); auto; [apply HT|apply HT'|apply HT]).
  assert (HG' : length genome = length pool') by (rewrite HG; eapply L_List.Forall2_len; exact HPP).
  assert (HLn : length X = length X'). { pose proof (Permutation_length HS) as H. rewrite map_length, !combine_length in H. destruct HT as [_ H1], HT' as [_ H2]. lia. }
  assert (HN' : X' <> []) by (intros ->; destruct X; [congruence|discriminate]).
  unfold sol_fit. rewrite (cached ms pool genome mx X y g HT HD HC HP HG), (cached ms' pool' genome mx X' y' g HT' HD' HC' HP' HG').
  destruct (predictions_same ms ms' pool pool' genome mx X y X' y' g HT HT' HS HB HC HP HP' HG) as [(e & g' & A & B)|(h & h' & g' & A & B & C)].
  - rewrite (A X (proj1 HT) HN), (B X' (proj1 HT') HN'). split; reflexivity.
  - rewrite (A X (proj1 HT)), (B X' (proj1 HT')). rewrite !map_length. destruct HT as [HF HL], HT' as [HF' HL']. rewrite HL, HL', !Nat.eqb_refl. destruct X as [|x X0]; [congruence|]. destruct X' as [|x' X0']; [congruence|].
    cbn [negb orb length Nat.eqb]. set (X := x :: X0) in *. set (X' := x' :: X0') in *.
    assert (HM : floor_error (mse y (map h X)) == floor_error (mse y' (map h' X'))).
    { apply floor_same. pose proof (mse_rows h X y HL) as M1. pose proof (mse_rows h' X' y' HL') as M2. eapply Qeq_trans; [exact (eq_ind_r (fun q => mse y (map h X) == q) (Qeq_refl _) (eq_sym M1))|]. eapply Qeq_trans; [|exact (eq_ind_r (fun q => q == mse y' (map h' X')) (Qeq_refl _) (eq_sym M2))]. apply (mse_seen v d); [|exact C|exact HS]. apply Forall_forall. intros p Hp. exact (in_combine_row X y d p HF Hp). }
    split; [|reflexivity]. unfold same_measures. cbn. rewrite ?(L_List.Forall2_len _ _ _ HPP), ?HLn. repeat split; auto; try apply Hsf; auto.
Qed.
End Solutions.

(* ----- other ways to write a sample or a condition ----- *)
Lemma forall2_nth {A B} (R : A -> B -> Prop) a b l m : length l = length m -> (Forall2 R l m <-> forall i, (i < length l)%nat -> R (nth i l a) (nth i m b)).
Proof.
  revert m. induction l as [|x l IH]; intros [|y m] HL; try discriminate; [split; [intros _ i Hi; cbn in Hi; lia|constructor]|]. injection HL as HL. split.
  - intros H i Hi. inversion H; subst. destruct i; cbn; [assumption|]. apply (IH m HL); [assumption|cbn in Hi; lia].
  - intros H. constructor; [exact (H 0%nat ltac:(cbn; lia))|]. apply (IH m HL). intros i Hi. exact (H (S i) ltac:(cbn; lia)).
Qed.
Lemma rearranged_forall2 {A B} (R : A -> B -> Prop) a b p l m d : length l = d -> length m = d -> Permutation p (seq 0 d) -> (Forall2 R (rearranged a p l) (rearranged b p m) <-> Forall2 R l m).
Proof.
  intros HL HM HP. rewrite (forall2_nth R a b l m) by congruence. rewrite HL.
  assert (E : Forall2 R (rearranged a p l) (rearranged b p m) <-> Forall (fun i => R (nth i l a) (nth i m b)) p).
  { unfold rearranged. clear. induction p as [|i p IH]; [split; constructor|]. cbn. split; intros H; inversion H; subst; constructor; auto; apply IH; assumption. }
  rewrite E. split.
  - intros H i Hi. eapply Permutation_Forall in H; [|exact HP]. rewrite Forall_forall in H. apply H. apply in_seq. lia.
  - intros H. eapply Permutation_Forall; [apply Permutation_sym; exact HP|]. apply Forall_forall. intros i Hi. apply in_seq in Hi. apply H. lia.
Qed.
Lemma qprod_perm l m : Permutation l m -> qprod l == qprod m.
Proof. unfold qprod. induction 1; cbn [fold_right]; [reflexivity|rewrite IHPermutation; reflexivity|ring|eapply Qeq_trans; eassumption]. Qed.
Lemma map_nth_seq {A} (a : A) l : map (fun i => nth i l a) (seq 0 (length l)) = l.
Proof.
  induction l as [|x l IH]; [reflexivity|]. cbn [length seq map nth]. f_equal. rewrite <- seq_shift, map_map. cbn. exact IH.
Qed.
Lemma rearranged_box p d m : Permutation p (seq 0 d) -> length (bnd m) = d -> same_box (rearranged 0 p) d m (mkMatching (mt m) (rearranged (0, 0) p (bnd m))).
Proof.
  intros HP HD. assert (HLp : length p = d) by (rewrite (Permutation_length HP); apply seq_length). constructor; cbn [bnd mt].
  - exact HD.
  - unfold rearranged. rewrite map_length. exact HLp.
  - intros x Hx. unfold covers. cbn [bnd mt]. apply (rearranged_forall2 _ (0, 0) 0 p _ _ d HD Hx HP).
  - unfold volume. cbn [bnd mt]. unfold rearranged. rewrite map_map.
    assert (E : map (width (mt m)) (bnd m) = map (fun i => width (mt m) (nth i (bnd m) (0, 0))) (seq 0 d)) by (rewrite <- HD, <- (map_map (fun i => nth i (bnd m) (0, 0))), map_nth_seq; reflexivity).
    rewrite E. apply qprod_perm. apply Permutation_map. exact HP.
Qed.
Lemma rearranged_length p d (x : row) : Permutation p (seq 0 d) -> length (rearranged 0 p x) = d.
Proof. intros HP. unfold rearranged. rewrite map_length, (Permutation_length HP). apply seq_length. Qed.
(* the same box in another representation *)
Lemma pairwise_box t t' bs bs' : Forall2 (fun b b' => lo t' b' == lo t b /\ hi t' b' == hi t b /\ width t' b' == width t b) bs bs' -> same_box (fun x => x) (length bs) (mkMatching t bs) (mkMatching t' bs').
Proof.
  intros H. constructor; cbn [bnd mt]; [reflexivity|symmetry; eapply L_List.Forall2_len; exact H| |].
  - intros x _. unfold covers. cbn [bnd mt]. revert x. induction H as [|b b' bs bs' (H1 & H2 & _) H IH]; intros x; [split; intros HX; inversion HX; constructor|].
    split; intros HX; inversion HX as [|? q ? x0 HA HB]; subst; constructor; try (apply IH; assumption); lra.
  - unfold volume. cbn [bnd mt]. unfold qprod. induction H as [|b b' bs bs' (_ & _ & H3) H IH]; cbn [map fold_right]; [reflexivity|]. rewrite H3, IH. reflexivity.
Qed.
Lemma qmin_Qmin a b : qmin a b == Qminmax.Qmin a b.
Proof. unfold qmin. destruct (qle_spec a b); [rewrite Qminmax.Q.min_l by assumption|rewrite Qminmax.Q.min_r by lra]; reflexivity. Qed.
Lemma qmax_Qmax a b : qmax a b == Qminmax.Qmax a b.
Proof. unfold qmax. destruct (qle_spec a b); [rewrite Qminmax.Q.max_r by assumption|rewrite Qminmax.Q.max_l by lra]; reflexivity. Qed.
Lemma unordered_box bs : same_box (fun x => x) (length bs) (mkMatching UnorderedBound bs) (mkMatching OrderedBound (map (fun b => (qmin (fst b) (snd b), qmax (fst b) (snd b))) bs)).
Proof.
  apply pairwise_box. induction bs as [|[a b] bs IH]; cbn [map]; constructor; [|exact IH]. cbn [lo hi width fst snd]. rewrite <- qmin_Qmin, <- qmax_Qmax. split; [reflexivity|]. split; [reflexivity|].
  unfold qmin, qmax. destruct (qle_spec a b), (qle_spec (b - a) (- (b - a))); lra.
Qed.
Lemma clip_in l h x : l <= x -> x <= h -> qclip l h x == x.
Proof. intros H1 H2. unfold qclip, qmax. destruct (qle_spec x l) as [A|A]; unfold qmin; [destruct (qle_spec l h)|destruct (qle_spec x h)]; lra. Qed.
Lemma centre_box bs : Forall (fun b => 0 <= snd b /\ -(1) <= fst b - snd b /\ fst b + snd b <= 1) bs -> same_box (fun x => x) (length bs) (mkMatching CenterSpread bs) (mkMatching OrderedBound (map (fun b => (fst b - snd b, fst b + snd b)) bs)).
Proof.
  intros H. apply pairwise_box. induction H as [|[c s] bs (H1 & H2 & H3) H IH]; cbn [map]; constructor; [|exact IH]. cbn [lo hi width fst snd] in *. split; [reflexivity|]. split; [reflexivity|].
  rewrite !clip_in by lra. reflexivity.
Qed.
(* the local model of the examples is indifferent *)
Lemma mean_indifferent v d : (forall x, length x = d -> length (v x) = d) -> indifferent mean_learner v d.
Proof.
  intros HL. constructor; [exact HL| |].
  - intros s s' _ HS x _. cbn [mpred train mean_learner]. assert (E : qsum (map snd s') == qsum (map snd s)).
    { unfold seen in HS. apply (Permutation_map snd) in HS. rewrite map_map in HS. cbn [snd] in HS. symmetry. apply L_MixingProps.qsum_perm. exact HS. }
    assert (E2 : length s' = length s) by (apply Permutation_length in HS; rewrite map_length in HS; auto). rewrite !map_length, E2, E. reflexivity.
  - intros m m' e e' _ H. cbn [rfitness mean_learner same_num]. rewrite H. reflexivity.
Qed.

(* a fitness that values volume tells the percentage representation from the others *)
Definition by_volume : learner := mkLearner Q (fun _ y => qsum y / qofnat (length y)) (fun m _ => m) (fun m _ => Fin (volume m)).
Lemma percentage_differs : exists m m' X y r r' a a', (forall x, covers m' x <-> covers m x) /\ length (bnd m) = length (bnd m') /\ table (length (bnd m)) X y /\
  fitted_from by_volume X y m r /\ fitted_from by_volume X y m' r' /\ att r = Some a /\ att r' = Some a' /\ ~ same_num (M_Rule.fitness a) (M_Rule.fitness a').
Proof.
  exists (mkMatching OrderedBound [(0, 1 # 2)]), (mkMatching MinPercentage [(0, 1 # 2)]), [[0]], [1].
  do 4 eexists. split; [|split; [reflexivity|split; [split; [repeat constructor|reflexivity]|split; [vm_compute; reflexivity|split; [vm_compute; reflexivity|split; [reflexivity|split; [reflexivity|]]]]]]].
  - intros x. unfold covers. cbn [bnd mt]. split; intros H; inversion H as [|? q ? x0 HA HB]; subst; inversion HB; subst; constructor; try constructor; cbn [lo hi] in *; lra.
  - vm_compute. discriminate.
Qed.
