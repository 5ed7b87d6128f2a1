(* During fit the rules novelty search looks at are the rules of the pool. *)
From Verif Require Import PyNum PyList PyMon PyRng M_Matching M_Rule M_Mixing M_Discovery M_Novelty M_Fit S_Fit M_Shipped L_FitInv.

Lemma archive_in_fit (L : learner) rngof c k (C : composition L) (G : logger L) p os X y (e e' : est (ns_discovery L rngof c k) C G) :
  fit p os false X y e = (Ok tt, e') -> is_error e' = false -> exists c' cells, disc e' = Some (c', cells) /\ map crule cells = pool e'.
Proof.
  intros H HE. pose (Pr := fun (pool : list (rule L)) (s : dst (ns_discovery L rngof c k)) (_ : cst C) => map crule (snd s) = pool).
  destruct (fit_holds L (ns_discovery L rngof c k) C G p X y Pr Pr) with (os := os) (e := e) (e' := e') as ([c' cs] & c0 & s0 & Hd & _ & HP & _); auto.
  - intros s0 c0 H0 _. cbn [dnew ns_discovery] in H0. destruct (ns_new c) as [c1|x]; [|discriminate]. cbn [rbind] in H0.
    destruct (init_bounds X k) as [k'|x]; [|discriminate]. cbn [rbind] in H0. injection H0 as <-. reflexivity.
  - intros pool [c' cs] c0 el n s new j s1 HP _ _ HR. unfold Pr in *. cbn [drun ns_discovery fst snd] in *.
    destruct (ns_optimize c' X y cs _ _ n _) as [r g']. cbn [fst] in HR. destruct r as [out|x]; [|discriminate]. injection HR as <- _ <-. cbn [snd]. rewrite map_app, HP. reflexivity.
  - exists c', cs. split; [exact Hd|exact HP].
Qed.
(* one call of optimize hands the rules it knows to the search and remembers what it found with them *)
Lemma archive_step (L : learner) rngof c k X y pool el n s c' cells new j d' :
  drun (ns_discovery L rngof c k) X y pool el n s (c', cells) = (Ok new, (j, d')) ->
  exists el' mx out g', ns_optimize c' X y cells el' mx n (rngof (sstream s)) = (Ok out, g') /\ new = map crule out /\ d' = (c', cells ++ out).
Proof.
  intros H. cbn [drun ns_discovery fst snd] in H. set (D := discovery_env X y [] el) in *. exists (delite D), (dmix D).
  destruct (ns_optimize c' X y cells _ _ n _) as [[out|x] g']; [|discriminate]. cbn [fst] in H. injection H as <- _ <-. exists out, g'. auto.
Qed.
