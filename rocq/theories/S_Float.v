(* What double precision numbers are, independently of the rounding of PyFloat. *)
From Verif Require Import PyNum PyList.

(* 53 binary digits, the last of them not below 2^-1074 *)
Definition dyadic (q : Q) : Prop := exists m e : Z, (Z.abs m < 2 ^ 53)%Z /\ (-1074 <= e)%Z /\ q == inject_Z m * (2 # 1) ^ e.
(* a double: such a number below 2^1024, an infinity or NaN *)
Definition double (x : num) : Prop := match x with Fin q => dyadic q /\ Qabs q < (2 # 1) ^ 1024 | _ => True end.
(* a finite double *)
Definition finite (x : num) : Prop := double x /\ is_fin x = true.
Definition finite_pair (b : num * num) : Prop := finite (fst b) /\ finite (snd b).
(* x lies between the two numbers *)
Definition within (b : num * num) (x : num) : Prop := nle (fst b) x = true /\ nle x (snd b) = true.
(* not negative, not NaN *)
Definition amount (x : num) : Prop := nle (Fin 0) x = true.

(* exact numbers as floating point numbers *)
Definition inj (b : Q * Q) : num * num := (Fin (fst b), Fin (snd b)).
Definition given (r : option Q * Q) : option num * num := (option_map Fin (fst r), Fin (snd r)).
(* the rules that match a sample, with their predictions and weights *)
Fixpoint voting (rules : list (option Q * Q)) : list (Q * Q) :=
  match rules with [] => [] | (Some p, t) :: rules' => (p, t) :: voting rules' | (None, _) :: rules' => voting rules' end.
Definition weighted_mean (votes : list (Q * Q)) : Q := qsum (map (fun v => fst v * snd v) votes) / qsum (map snd votes).
(* numbers far from the largest and the smallest doubles *)
Definition moderate (r : option Q * Q) : Prop :=
  (dyadic (snd r) /\ (2 # 1) ^ (-100) <= snd r <= (2 # 1) ^ 100) /\
  match fst r with Some p => p == 0 \/ (2 # 1) ^ (-900) <= Qabs p <= (2 # 1) ^ 500 | None => True end.
(* the double called 1e-4, the least error *)
Definition least_error : Q := 7378697629483821 # 73786976294838206464.
Definition mean_squared (y p : list Q) : Q := qsum (map2 (fun a b => (a - b) * (a - b)) y p) / qofnat (length y).
Definition moderate_value (q : Q) : Prop := dyadic q /\ Qabs q <= (2 # 1) ^ 400.
(* the pair b is an interval inside s *)
Definition lies_in (s b : num * num) : Prop := nle (fst s) (fst b) = true /\ nle (fst b) (snd b) = true /\ nle (snd b) (snd s) = true.
(* a rule for one sample: its prediction if it matches, its error, the experience that counts and the weight *)
Record voter : Type := mkVoter { v_says : option Q; v_error : Q; v_experience : Q; v_weight : Q }.
Definition voter_weight (v : voter) : Q := v_experience v * v_weight v / v_error v.
Definition exact_vote (v : voter) : option Q * Q := (v_says v, voter_weight v).
Definition usual (q : Q) : Prop := (2 # 1) ^ (-30) <= q <= (2 # 1) ^ 30.
Definition usual_voter (v : voter) : Prop := usual (v_error v) /\ usual (v_experience v) /\ usual (v_weight v) /\
  match v_says v with Some p => p == 0 \/ (2 # 1) ^ (-900) <= Qabs p <= (2 # 1) ^ 500 | None => True end.
