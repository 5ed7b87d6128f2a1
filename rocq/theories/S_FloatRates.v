(* C69: sensible limits. *)
From Verif Require Import PyNum PyList M_FloatRates S_Float.

(* limits between 0 and 1, multipliers from 1 on *)
Definition sane_range (c : frange) : Prop :=
  (finite (m_min c) /\ finite (m_max c) /\ nle (m_min c) (m_max c) = true) /\ (finite (c_min c) /\ finite (c_max c) /\ nle (c_min c) (c_max c) = true) /\
  (amount (m_min c) /\ amount (c_min c)) /\
  (finite (m_mult c) /\ nle (Fin 1) (m_mult c) = true) /\ (finite (c_mult c) /\ nle (Fin 1) (c_mult c) = true).
Definition rates_within (c : frange) (r : num * num) : Prop := within (m_min c, m_max c) (fst r) /\ within (c_min c, c_max c) (snd r).
(* a rate or a fitness value: a double between 0 and a bound *)
Definition double_upto (b : Q) (x : num) : Prop := finite x /\ within (Fin 0, Fin b) x.
