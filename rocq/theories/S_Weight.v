(* Two estimators that differ only in the experience_weight of the mixing model. *)
From Verif Require Import PyNum PyList PyMon PyRng M_Matching M_Rule M_Mixing M_Discovery M_Solution M_Composition M_Logging S_Units S_Order S_Repeat.

(* an experience and an error as fit leaves them *)
Definition measured {L} (r : rule L) : Prop :=
  forall t, att r = Some t -> 0 <= experience t /\ (error t = PInf \/ exists e, error t = Fin e /\ 0 < e).
(* the same rule, measured *)
Definition same_measured {L} (r r' : rule L) : Prop := r' = r /\ measured r.
Definition not_negative (u : option Q) : Prop := match u with Some u => 0 <= u | None => True end.
(* no negative limit from above on the experience *)
Definition sound_limits (c : expcalc) : Prop :=
  match c with ExpAsIs => True | CapExperience _ u | CapExperienceWithDimensionality _ u => not_negative u end.
(* the same mixing model with another weight of the experience *)
Record reweighted (m m' : mixing) : Prop := {
  rw_filter : mfilter m' = mfilter m;
  rw_exp : mexp m' = mexp m;
  rw_limits : sound_limits (mexp m);
  rw_weight : ~ mweight m == 0 /\ ~ mweight m' == 0 }.
Definition reweigh (w : Q) (m : mixing) : mixing := mkMixing (mfilter m) (mexp m) w.
(* a fitness that depends on the value of the error *)
Definition by_value (f : Q -> nat -> nat -> num) : Prop := forall e e' c n, e == e' -> same_num (f e c n) (f e' c n).
(* what rule discovery is given *)
Record reweighted_problem {L} (D D' : denv L) : Prop := {
  rwp_data : dX D' = dX D /\ dy D' = dy D;
  rwp_pool : dpool D' = dpool D /\ Forall measured (dpool D);
  rwp_elite : delite D' = delite D;
  rwp_mix : delite D <> None -> reweighted (dmix D) (dmix D') }.
(* what the default logger writes: the same keys in the same order with the same values *)
Definition same_values : metrics -> metrics -> Prop := Forall2 (fun p p' => fst p' = fst p /\ same_num (snd p) (snd p')).

(* ----- solution composition ----- *)
(* the same pool of rules, on which every genome has the same measurements *)
Record same_task {L} (E E' : env L) : Prop := {
  st_pool : M_Solution.epool E' = M_Solution.epool E;
  st_measured : ranked_task same_measures E E' }.
(* an optimizer that depends only on the values it is told: on two problems with the same values it returns the same genomes
   and ends with the same random numbers to come; RS relates what it keeps between calls *)
Definition values_only {K} (O : optimizer K) : Prop := exists RS : ostate O -> ostate O -> Prop,
  (forall i, RS i i) /\ (forall i i', RS i i' -> osize O i = osize O i') /\
  forall L (E E' : env L) ini pop i i', same_task E E' -> RS i i' ->
    tandem (ranked_heap same_measures) (fun z z' => fst z = fst z' /\ RS (snd z) (snd z')) (orun O L E ini pop i) (orun O L E' ini pop i').
(* functions of the library numpy that depend on the value of their argument *)
Definition of_value (h : num -> num) : Prop := forall v v', same_num v v' -> same_num (h v) (h v').
