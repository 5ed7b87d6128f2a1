(* Examples for double precision: the rounding against the standard library's IEEE arithmetic, and concrete cases of the theorems. *)
From Coq Require Import SpecFloat.
From Verif Require Import PyNum PyFloat PyList PyMon M_Matching M_Float S_Float L_Num L_Float L_FloatProps L_FloatMix.

(* ----- the standard library's IEEE arithmetic ----- *)
Definition spec (x : num) : spec_float :=
  match x with
  | PInf => S754_infinity false
  | NInf => S754_infinity true
  | NaN => S754_nan
  | Fin q =>
      if qeq q 0 then S754_zero false
      else let e := last_digit q in
           match Qfloor (Qabs q / two_to e) with Zpos m => S754_finite (qlt q 0) m e | _ => S754_nan end
  end.
Definition same (a b : spec_float) : bool :=
  match a, b with S754_nan, S754_nan => true | S754_nan, _ | _, S754_nan => false | _, _ => SFeqb a b end.
Definition agree (a b : num) : bool :=
  same (spec (fadd a b)) (SFadd 53 1024 (spec a) (spec b)) && same (spec (fsub a b)) (SFsub 53 1024 (spec a) (spec b)) &&
  same (spec (fmul a b)) (SFmul 53 1024 (spec a) (spec b)) &&
  (* division by zero: the sign of zero is not modelled *)
  (neqb b (Fin 0) || same (spec (fdiv a b)) (SFdiv 53 1024 (spec a) (spec b))) &&
  Bool.eqb (nle a b) (SFleb (spec a) (spec b)) && Bool.eqb (nlt a b) (SFltb (spec a) (spec b)).
Definition digits (q : Q) : num := round (Fin q).
Definition samples : list num :=
  let pos := [digits (1 # 10); digits (1 # 3); Fin (1 + two_to (-52)); Fin (two_to 53 - 1); PInf] in
  Fin 0 :: NaN :: pos ++ map nneg pos.
(* subnormal numbers and overflow *)
Definition extremes : list (num * num) :=
  [(Fin (Qred (two_to (-1074))), digits (1 # 3)); (Fin (Qred (- two_to (-537) * (3 # 2))), Fin (Qred (two_to (-537)))); (Fin (Qred ((two_to 53 - 1) * two_to 971)), Fin (Qred (two_to 970)))].
Example rounding_is_ieee : forallb (fun a => forallb (agree a) samples) samples = true.
Proof. vm_compute. reflexivity. Qed.
Example extremes_are_ieee : forallb (fun p => agree (fst p) (snd p)) extremes = true.
Proof. vm_compute. reflexivity. Qed.

(* ----- doubles ----- *)
Lemma digits_double q : double (digits q).
Proof. apply round_is_double. Qed.
Lemma digits_finite q : is_fin (digits q) = true -> finite (digits q).
Proof. intros H. split; [apply digits_double|exact H]. Qed.
(* ----- C64: an example ----- *)
Definition sample1 : list num := [digits (7 # 10); digits (-3 # 10)].
Definition space1 : fbounds := [(digits (-1 # 1), digits 1); (digits (-1 # 1), digits 1)].
Definition range1 : num := digits (1 # 1000000).
Lemma sample1_finite : Forall finite sample1.
Proof. constructor; [|constructor; [|constructor]]; apply digits_finite; vm_compute; reflexivity. Qed.
Lemma space1_finite : Forall finite_pair space1.
Proof. constructor; [|constructor; [|constructor]]; (split; apply digits_finite; vm_compute; reflexivity). Qed.
(* large feature values absorb the minimum range *)
Definition far : num := digits (10000000000 # 1).
Example range_absorbed : fmin_range_pair OrderedBound range1 (far, far) = (far, far).
Proof. vm_compute. reflexivity. Qed.
(* ----- C65 ----- *)
Definition tau1 : num := ftau (digits (3 # 100)) (Fin 7) (Fin 1).
Example single_rule : fmix [(Some (digits (7 # 10)), tau1)] <> digits (7 # 10) /\ is_fin (fmix [(Some (digits (7 # 10)), tau1)]) = true.
Proof. split; [|vm_compute; reflexivity]. intros H. vm_compute in H. discriminate. Qed.
Example single_rule_above : nlt (digits (7 # 10)) (fmix [(Some (digits (7 # 10)), tau1)]) = true.
Proof. vm_compute. reflexivity. Qed.
(* a rule that predicts 10^200 - 1/2*10^200 for the two targets 0 and 10^200: its error overflows, and with it the prediction vanishes *)
Definition huge : num := digits (10 ^ 200 # 1).
Definition halfway : num := fdiv huge (Fin 2).
Definition error1 : num := ferror [Fin 0; huge] [halfway; halfway].
Example error_overflows : error1 = PInf /\ fmix [(Some halfway, ftau error1 (Fin 2) (Fin 1))] = Fin 0 /\ nlt (Fin 0) halfway = true.
Proof. repeat split; vm_compute; reflexivity. Qed.
(* MinPercentage with all of the rest of the way to 1 *)
Example percentage_misses : frow_matches MinPercentage [(digits (-997 # 1000), Fin 1)] [Fin 1] = false.
Proof. vm_compute. reflexivity. Qed.
(* rules of ordinary size *)
Definition rules1 : list (option Q * Q) := [(Some (7 # 10), 233); (None, 5); (Some (-(3 # 4)), 1 # 8)].
Lemma rules1_moderate : Forall moderate rules1.
Proof.
  assert (D : forall m e, (Z.abs m <? 2 ^ 53)%Z = true -> (-1074 <=? e)%Z = true -> dyadic (inject_Z m * (2 # 1) ^ e)).
  { intros m e H1 H2. exists m, e. apply Z.ltb_lt in H1. apply Z.leb_le in H2. repeat split; assumption || reflexivity. }
  assert (C : forall t m e, t == inject_Z m * (2 # 1) ^ e -> (Z.abs m <? 2 ^ 53)%Z = true -> (-1074 <=? e)%Z = true -> qle ((2 # 1) ^ (-100)) t && qle t ((2 # 1) ^ 100) = true ->
    dyadic t /\ (2 # 1) ^ (-100) <= t <= (2 # 1) ^ 100).
  { intros t m e E H1 H2 H3. apply andb_true_iff in H3. rewrite !qle_iff in H3. split; [|exact H3]. apply (dyadic_compat (inject_Z m * (2 # 1) ^ e)); [now symmetry|now apply D]. }
  assert (P : forall p, qle ((2 # 1) ^ (-900)) (Qabs p) && qle (Qabs p) ((2 # 1) ^ 500) = true -> p == 0 \/ (2 # 1) ^ (-900) <= Qabs p <= (2 # 1) ^ 500).
  { intros p H. apply andb_true_iff in H. rewrite !qle_iff in H. now right. }
  constructor; [|constructor; [|constructor; [|constructor]]]; split; cbn [fst snd].
  - apply (C _ 233%Z 0%Z); vm_compute; reflexivity.
  - apply P; vm_compute; reflexivity.
  - apply (C _ 5%Z 0%Z); vm_compute; reflexivity.
  - exact I.
  - apply (C _ 1%Z (-3)%Z); vm_compute; reflexivity.
  - apply P; vm_compute; reflexivity.
Qed.

(* ----- the cases named in P_Float ----- *)
Lemma fin1 : finite (Fin 1).
Proof. apply (digits_finite 1). vm_compute. reflexivity. Qed.
Lemma min_range_ex :
  let m := mkF OrderedBound [(digits (1 # 10), digits (1 # 10)); (digits (-3 # 10), digits (2 # 10))] in
  Forall finite_pair (fbnd m) /\ frow_matches OrderedBound (fbnd m) [digits (1 # 10); Fin 0] = true /\ fbnd (fmin_range m range1) <> fbnd m.
Proof.
  split; [|split].
  - constructor; [|constructor; [|constructor]]; (split; apply digits_finite; vm_compute; reflexivity).
  - vm_compute. reflexivity.
  - intros H. vm_compute in H. discriminate.
Qed.
Lemma increase_ex :
  fbnd (fincrease (mkF OrderedBound [(digits (1 # 10), digits (2 # 10))]) [(digits (1 # 30), digits (1 # 30))]) <> [(digits (1 # 10), digits (2 # 10))] /\
  frow_matches OrderedBound [(digits (1 # 10), digits (2 # 10))] [digits (15 # 100)] = true.
Proof. split; [intros H; vm_compute in H; discriminate|vm_compute; reflexivity]. Qed.
Lemma fresh_ex : Forall finite sample1 /\ Forall2 within space1 sample1.
Proof. split; [exact sample1_finite|]. constructor; [|constructor; [|constructor]]; (split; vm_compute; reflexivity). Qed.
Lemma region_ex : Forall finite_pair space1 /\ Forall (fun b => nle (fst b) (snd b) = true) space1 /\
  fbnd (fconstrain range1 [(Fin 0, Fin 1); (Fin 0, Fin 1)] (mkF OrderedBound space1)) = [(Fin 0, Fin 1); (Fin 0, Fin 1)].
Proof. split; [exact space1_finite|]. split; [constructor; [|constructor; [|constructor]]|]; vm_compute; reflexivity. Qed.
Lemma uniform_ex : finite (digits (1 # 10)) /\ finite (digits (7 # 10)) /\ nle (digits (1 # 10)) (digits (7 # 10)) = true /\
  is_fin (fsub (digits (7 # 10)) (digits (1 # 10))) = true /\ nlt (digits (1 # 10)) (funiform (digits (1 # 10)) (digits (7 # 10)) (digits (999 # 1000))) = true.
Proof. split; [|split; [|repeat split; vm_compute; reflexivity]]; apply digits_finite; vm_compute; reflexivity. Qed.
Lemma width_ex : exists lo mr, double (Fin lo) /\ double (Fin mr) /\ (2 # 1) ^ (-1021) <= mr /\
  fmin_range_pair OrderedBound (Fin mr) (Fin lo, Fin lo) <> (Fin lo, Fin lo).
Proof.
  exists 1, (1 # 4). split; [apply (digits_double 1)|]. split; [apply (digits_double (1 # 4))|]. split; [apply qle_iff; vm_compute; reflexivity|].
  intros H. vm_compute in H. discriminate.
Qed.
Lemma width_absorbed : exists b mr, finite_pair b /\ finite mr /\ nlt (Fin 0) mr = true /\ nle (fst b) (snd b) = true /\
  nlt (fwidth OrderedBound (fmin_range_pair OrderedBound mr b)) mr = true /\ fmin_range_pair OrderedBound mr b = b.
Proof.
  exists (far, far), range1. split; [split; apply digits_finite; vm_compute; reflexivity|]. split; [apply digits_finite; vm_compute; reflexivity|].
  repeat split; vm_compute; reflexivity.
Qed.
Lemma percentage_refuted : exists lower x, finite lower /\ finite x /\ nle (Fin (-(1))) lower = true /\ nle lower x = true /\ nle x (Fin 1) = true /\
  frow_matches MinPercentage [(lower, Fin 1)] [x] = false.
Proof.
  exists (digits (-997 # 1000)), (Fin 1). split; [apply digits_finite; vm_compute; reflexivity|]. split; [exact fin1|].
  repeat split; vm_compute; reflexivity.
Qed.
Lemma votes1 : voting rules1 = [(7 # 10, 233); (-(3 # 4), 1 # 8)].
Proof. reflexivity. Qed.
Lemma mix_ex : Forall moderate rules1 /\ voting rules1 <> [] /\ Forall (fun v => Qabs (fst v) <= 1) (voting rules1).
Proof.
  split; [exact rules1_moderate|]. rewrite votes1. split; [discriminate|]. constructor; [|constructor; [|constructor]]; apply qle_iff; vm_compute; reflexivity.
Qed.
Lemma between_ex : Forall moderate rules1 /\ voting rules1 <> [] /\ Forall (fun v => -(1) <= fst v <= 1) (voting rules1).
Proof.
  split; [exact rules1_moderate|]. rewrite votes1. split; [discriminate|]. constructor; [|constructor; [|constructor]]; (split; apply qle_iff; vm_compute; reflexivity).
Qed.
Lemma single_rule_refuted : exists p error experience weight, finite p /\ finite error /\ finite experience /\ finite weight /\
  nle (round (Fin (1 # 10000))) error = true /\
  nlt p (fmix [(Some p, ftau error experience weight)]) = true.
Proof.
  exists (digits (7 # 10)), (digits (3 # 100)), (digits 7), (Fin 1).
  split; [apply digits_finite; vm_compute; reflexivity|]. split; [apply digits_finite; vm_compute; reflexivity|].
  split; [apply digits_finite; vm_compute; reflexivity|]. split; [exact fin1|]. split; vm_compute; reflexivity.
Qed.
Lemma halfway_finite : finite halfway.
Proof. split; [unfold halfway, fdiv; apply round_is_double|vm_compute; reflexivity]. Qed.
Lemma huge_refuted : exists y p, Forall finite y /\ Forall finite p /\ length y = length p /\
  Forall (fun v => nlt (Fin 0) v = true) p /\
  Forall (fun v => fmix [(Some v, ftau (ferror y p) (Fin (qofnat (length y))) (Fin 1))] = Fin 0) p.
Proof.
  exists [Fin 0; huge], [halfway; halfway].
  split; [constructor; [apply (digits_finite 0); vm_compute; reflexivity|constructor; [apply digits_finite; vm_compute; reflexivity|constructor]]|].
  split; [constructor; [exact halfway_finite|constructor; [exact halfway_finite|constructor]]|].
  split; [reflexivity|]. split; (constructor; [|constructor; [|constructor]]); vm_compute; reflexivity.
Qed.
Lemma voters_ex : let vs := [mkVoter (Some (7 # 10)) (1 # 3) 12 1; mkVoter None 1 2 1; mkVoter (Some (-(3 # 4))) (1 # 10000) 3 (1 # 2)] in
  Forall usual_voter vs /\ voting (map exact_vote vs) = [(7 # 10, 12 * 1 / (1 # 3)); (-(3 # 4), 3 * (1 # 2) / (1 # 10000))] /\ Forall (fun v => Qabs (fst v) <= 1) (voting (map exact_vote vs)).
Proof.
  cbv zeta. assert (U : forall q, qle ((2 # 1) ^ (-30)) q = true -> qle q ((2 # 1) ^ 30) = true -> usual q) by (intros q H1 H2; split; apply qle_iff; assumption).
  split; [|split; [reflexivity|constructor; [|constructor; [|constructor]]; apply qle_iff; vm_compute; reflexivity]].
  constructor; [|constructor; [|constructor; [|constructor]]]; (split; [apply U; vm_compute; reflexivity|]; split; [apply U; vm_compute; reflexivity|]; split; [apply U; vm_compute; reflexivity|]);
    cbn [v_says]; try exact I; right; split; apply qle_iff; vm_compute; reflexivity.
Qed.
