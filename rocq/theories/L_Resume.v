(* Two estimators that differ in the composition only. *)
From Verif Require Import PyNum PyList PyMon PyRng M_Matching M_Rule M_Mixing M_Solution M_Composition M_Fit M_Shipped S_ColdFit S_Resume.

Section Resume.
Context {L : learner} {D : discovery L} {C : composition L} {G : logger L}.
Variables (X : matrix) (y : targets).
Hypothesis HC : forall k pool s z z', fst (crun C X y k pool s z) = fst (crun C X y k pool s z') /\
  (fst (crun C X y k pool s z) = Ok tt -> cbest C (snd (crun C X y k pool s z)) = cbest C (snd (crun C X y k pool s z')) /\ cpopulation C (snd (crun C X y k pool s z)) = cpopulation C (snd (crun C X y k pool s z'))).
Local Notation est := (est D C G).
Lemma sans_inv (e e' : est) : sans e = sans e' -> exists a b c d f g h i j k l m z z', e = mkEst a b c d f g h i j k z l m /\ e' = mkEst a b c d f g h i j k z' l m.
Proof. destruct e, e'. unfold sans, set_comps. cbn. intros H. injection H as -> -> -> -> -> -> -> -> -> -> -> ->. repeat eexists. Qed.
(* same result, and the same but for the composition; when fit goes on the same elitist and population *)
Definition both {A} (x x' : res A * est) : Prop := fst x = fst x' /\ sans (snd x) = sans (snd x').
Lemma found k (e e' : est) : sans e = sans e' -> best e = best e' -> both (discover_safely X y k e) (discover_safely X y k e') /\
  (fst (discover_safely X y k e) = Ok false -> compo (snd (discover_safely X y k e)) = compo e /\ compo (snd (discover_safely X y k e')) = compo e' /\ exists el, best e = Ok el).
Proof.
  intros HS HB. destruct (sans_inv e e' HS) as (a & b & c & d & f & g & h & i & j & q & l & m & z & z' & -> & ->). clear HS. unfold discover_safely, catch.
  destruct (Nat.eqb k 0); [cbn; split; [split; reflexivity|discriminate]|]. unfold discover, bind, get, lift, assign. rewrite <- HB.
  destruct (best _) as [el|x]; [|destruct (python_exn x); split; try (split; reflexivity); discriminate].
  unfold the_disc. cbn [disc dseeds step pool cseeds compo]. destruct q as [q|]; cbn [of_option]; [|cbn; split; [split; reflexivity|discriminate]].
  destruct (of_option IndexError (nth_error i a)) as [s|x]; [|destruct (python_exn x); split; try (split; reflexivity); discriminate].
  destruct (drun D X y h el k s q) as [[new|x] [n q']]; [|destruct (python_exn x); split; try (split; reflexivity); discriminate].
  cbn. split; [split; reflexivity|]. intros _. split; [reflexivity|]. split; [reflexivity|]. exists el. reflexivity.
Qed.
Lemma made (e e' : est) z z' : sans e = sans e' -> compo e = Some z -> compo e' = Some z' -> both (compose_safely X y e) (compose_safely X y e') /\
  (fst (compose_safely X y e) = Ok false -> best (snd (compose_safely X y e)) = best (snd (compose_safely X y e')) /\ population (snd (compose_safely X y e)) = population (snd (compose_safely X y e'))).
Proof.
  intros HS H1 H2. destruct (sans_inv e e' HS) as (a & b & c & d & f & g & h & i & j & q & l & m & w & w' & -> & ->). cbn in H1, H2. subst w w'. clear HS. unfold compose_safely, catch, compose_step, bind, get, lift, assign, the_compo. cbn [compo of_option cseeds step max_len pool disc].
  destruct (of_option IndexError (nth_error j a)) as [s|x]; [|destruct (python_exn x); split; try (split; reflexivity); discriminate].
  pose proof (HC m h s z z') as [HR HK]. destruct (crun C X y m h s z) as [r t], (crun C X y m h s z') as [r' t']. cbn [fst snd] in HR, HK. subst r'.
  destruct r as [[]|x]; [|destruct (python_exn x); split; try (split; reflexivity); discriminate]. destruct (HK eq_refl) as [H1 H2]. cbn [fst snd]. split; [split; reflexivity|]. intros _. unfold best, population, the_compo. cbn [compo of_option rbind pool set_comps]. rewrite H1, H2. split; reflexivity.
Qed.
Lemma best_compo (e : est) el : best e = Ok el -> exists z, compo e = Some z.
Proof. unfold best, the_compo. destruct (compo e) as [z|]; [|discriminate]. intros _. exists z. reflexivity. Qed.
Lemma stopped p (e e' : est) : sans e = sans e' -> best e = best e' -> both (check_early_stopping p e) (check_early_stopping p e') /\ best (snd (check_early_stopping p e)) = best (snd (check_early_stopping p e')).
Proof.
  intros HS HB. destruct (sans_inv e e' HS) as (a & b & c & d & f & g & h & i & j & q & l & m & w & w' & -> & ->). clear HS. unfold check_early_stopping. destruct (Z.ltb 0 (patience p)); [|split; [split; reflexivity|exact HB]].
  unfold bind, get, lift, assign, ret. rewrite <- HB. destruct (best _) as [el|x] eqn:EB; [|split; [split; reflexivity|cbn [snd]; congruence]].
  destruct (of_option AttributeError el) as [v|x]; [|split; [split; reflexivity|cbn [snd]; congruence]]. cbn [previous counter].
  destruct (nlt _ _); (split; [split; reflexivity|]); cbn [snd]; exact (eq_trans EB HB).
Qed.
Lemma loop_cons p n steps (e : est) : main_loop p X y (n :: steps) e =
  match discover_safely X y (n_rules p) (set_step n e) with
  | (Raise x, e1) => (Raise x, e1)
  | (Ok true, e1) => (Ok true, e1)
  | (Ok false, e1) =>
    match compose_safely X y e1 with
    | (Raise x, e2) => (Raise x, e2)
    | (Ok true, e2) => (Ok true, e2)
    | (Ok false, e2) =>
      match the_logs e2 with
      | Raise x => (Raise x, e2)
      | Ok l =>
        match literation G X y (step e2) (pool e2) (population e2) (best e2) l with
        | Raise x => (Raise x, e2)
        | Ok l' =>
          match check_early_stopping p (set_logs (Some l') e2) with
          | (Raise x, e3) => (Raise x, e3)
          | (Ok true, e3) => (Ok false, e3)
          | (Ok false, e3) => main_loop p X y steps e3
          end
        end
      end
    end
  end.
Proof.
  cbn [main_loop]. unfold bind at 1, assign at 1. unfold bind at 1. destruct (discover_safely X y (n_rules p) (set_step n e)) as [[[]|x] e1]; try reflexivity.
  unfold bind at 1. destruct (compose_safely X y e1) as [[[]|x] e2]; try reflexivity. unfold bind at 1, get at 1. unfold bind at 1, lift at 1. destruct (the_logs e2) as [l|x]; [|reflexivity].
  unfold bind at 1, lift at 1. destruct (literation _ _ _ _ _ _ _ l) as [l'|x]; [|reflexivity]. unfold bind at 1, assign at 1. unfold bind at 1. destruct (check_early_stopping p _) as [[[]|x] e3]; reflexivity.
Qed.
Lemma sans_step n (e e' : est) : sans e = sans e' -> sans (set_step n e) = sans (set_step n e').
Proof. intros H. destruct (sans_inv e e' H) as (a & b & c & d & f & g & h & i & j & q & l & m & w & w' & -> & ->). reflexivity. Qed.
Lemma sans_logs o (e e' : est) : sans e = sans e' -> sans (set_logs o e) = sans (set_logs o e').
Proof. intros H. destruct (sans_inv e e' H) as (a & b & c & d & f & g & h & i & j & q & l & m & w & w' & -> & ->). reflexivity. Qed.
Lemma sans_read (e e' : est) : sans e = sans e' -> the_logs e = the_logs e' /\ step e = step e' /\ pool e = pool e'.
Proof. intros H. destruct (sans_inv e e' H) as (a & b & c & d & f & g & h & i & j & q & l & m & w & w' & -> & ->). repeat split. Qed.
Lemma resumed p steps (e e' : est) : sans e = sans e' -> best e = best e' -> both (main_loop p X y steps e) (main_loop p X y steps e') /\ (fst (main_loop p X y steps e) = Ok false -> best (snd (main_loop p X y steps e)) = best (snd (main_loop p X y steps e'))).
Proof.
  revert e e'. induction steps as [|n steps IH]; intros e e' HS HB; [split; [split; [reflexivity|exact HS]|intros _; exact HB]|]. rewrite !loop_cons.
  destruct (found (n_rules p) (set_step n e) (set_step n e') (sans_step n e e' HS) HB) as [[H1 H2] H3].
  destruct (discover_safely X y (n_rules p) (set_step n e)) as [r e1], (discover_safely X y (n_rules p) (set_step n e')) as [r' e1']. cbn [fst snd] in H1, H2, H3. subst r'.
  destruct r as [[]|x]; [split; [split; [reflexivity|exact H2]|discriminate]| |split; [split; [reflexivity|exact H2]|discriminate]].
  destruct (H3 eq_refl) as (H4 & H5 & el & H6). pose proof H6 as H7. change (best e = Ok el) in H7. destruct (best_compo e el H7) as [z Hz]. rewrite HB in H7. destruct (best_compo e' el H7) as [z' Hz'].
  change (compo (set_step n e)) with (compo e) in H4. change (compo (set_step n e')) with (compo e') in H5. rewrite Hz in H4. rewrite Hz' in H5.
  destruct (made e1 e1' z z' H2 H4 H5) as [[K1 K2] K3]. destruct (compose_safely X y e1) as [r e2], (compose_safely X y e1') as [r' e2']. cbn [fst snd] in K1, K2, K3. subst r'.
  destruct r as [[]|x]; [split; [split; [reflexivity|exact K2]|discriminate]| |split; [split; [reflexivity|exact K2]|discriminate]]. destruct (K3 eq_refl) as [K4 K5].
  destruct (sans_read e2 e2' K2) as (J1 & J2 & J3). rewrite <- J1, <- J2, <- J3, <- K4, <- K5. destruct (the_logs e2) as [l|x]; [|split; [split; [reflexivity|exact K2]|discriminate]].
  destruct (literation G X y (step e2) (pool e2) (population e2) (best e2) l) as [l'|x]; [|split; [split; [reflexivity|exact K2]|discriminate]].
  destruct (stopped p (set_logs (Some l') e2) (set_logs (Some l') e2') (sans_logs _ _ _ K2) K4) as [[M1 M2] M3].
  destruct (check_early_stopping p (set_logs (Some l') e2)) as [r e3], (check_early_stopping p (set_logs (Some l') e2')) as [r' e3']. cbn [fst snd] in M1, M2, M3. subst r'.
  destruct r as [[]|x]; [split; [split; [reflexivity|exact M2]|intros _; exact M3]|apply IH; assumption|split; [split; [reflexivity|exact M2]|discriminate]].
Qed.
Lemma cleaned (e e' : est) z z' : sans e = sans e' -> compo e = Some z -> compo e' = Some z' -> both (cleanup e) (cleanup e').
Proof.
  intros HS H1 H2. destruct (sans_inv e e' HS) as (a & b & c & d & f & g & h & i & j & q & l & m & w & w' & -> & ->). cbn in H1, H2. subst w w'. clear HS.
  unfold cleanup, bind, get, lift, assign. cbn [M_Fit.elitist]. destruct g as [[|v]|]; cbn [of_option]; [| |split; reflexivity].
  - unfold the_disc, the_compo. cbn. destruct q; split; reflexivity.
  - destruct (subpopulation L (ebits v) (epool v)) as [sub|x]; [|split; reflexivity]. unfold the_disc, the_compo. cbn. destruct q; split; reflexivity.
Qed.
Lemma finished clean (e e' : est) : sans e = sans e' -> best e = best e' -> both (finish clean X y e) (finish clean X y e').
Proof.
  intros HS HB. unfold finish, bind, get, lift, assign. rewrite <- HB. destruct (best e) as [el|x] eqn:EB; [|split; [reflexivity|exact HS]].
  destruct (best_compo e el EB) as [z Hz]. symmetry in HB. destruct (best_compo e' el HB) as [z' Hz']. clear EB HB.
  destruct (sans_inv e e' HS) as (a & b & c & d & f & g & h & i & j & q & l & m & w & w' & -> & ->). cbn in Hz, Hz'. subst w w'. clear HS.
  destruct el as [v|]; cbn [of_option]; [|split; reflexivity]. unfold the_logs. cbn [logs set_status set_elitist pool is_error]. destruct l as [l|]; cbn [of_option]; [|split; reflexivity].
  destruct (lfinal G X y h (Learned v) l) as [l'|x]; [|split; reflexivity]. destruct clean; [|split; reflexivity]. apply (cleaned _ _ z z'); reflexivity.
Qed.
Lemma rested p clean steps (e e' : est) : sans e = sans e' -> best e = best e' -> both (rest p clean X y steps e) (rest p clean X y steps e').
Proof.
  intros HS HB. destruct (resumed p steps e e' HS HB) as [[H1 H2] H3]. unfold rest, bind. destruct (main_loop p X y steps e) as [r t], (main_loop p X y steps e') as [r' t']. cbn [fst snd] in H1, H2, H3. subst r'.
  destruct r as [[]|x]; [split; [reflexivity|exact H2]|apply finished; [exact H2|apply H3; reflexivity]|split; [reflexivity|exact H2]].
Qed.
End Resume.
Lemma predict_sans {L} {D : discovery L} {C : composition L} {G : logger L} (e e' : est D C G) Z : sans e = sans e' -> predict e Z = predict e' Z.
Proof. intros H. destruct (sans_inv e e' H) as (a & b & c & d & f & g & h & i & j & q & l & m & w & w' & -> & ->). reflexivity. Qed.
Lemma never_stops {L} {D : discovery L} {C : composition L} {G : logger L} p (e : est D C G) : (patience p <= 0)%Z -> check_early_stopping p e = (Ok false, e).
Proof. intros H. unfold check_early_stopping. assert (HZ : Z.ltb 0 (patience p) = false) by (apply Z.ltb_ge; exact H). rewrite HZ. reflexivity. Qed.
Lemma loop_split {L} {D : discovery L} {C : composition L} {G : logger L} p X y a b (e : est D C G) : (patience p <= 0)%Z ->
  main_loop p X y (a ++ b) e = (let* failed := main_loop p X y a in if failed then ret true else main_loop p X y b) e.
Proof.
  intros HP. revert e. induction a as [|n a IH]; intros e; [reflexivity|]. unfold bind. cbn [app]. rewrite !loop_cons.
  destruct (discover_safely X y (n_rules p) (set_step n e)) as [[[]|x] e1]; try reflexivity. destruct (compose_safely X y e1) as [[[]|x] e2]; try reflexivity. destruct (the_logs e2) as [l|x]; [|reflexivity].
  destruct (literation G X y (step e2) (pool e2) (population e2) (best e2) l) as [l'|x]; [|reflexivity]. rewrite never_stops by exact HP. rewrite IH. reflexivity.
Qed.
Lemma rest_split {L} {D : discovery L} {C : composition L} {G : logger L} p clean X y a b (e : est D C G) : (patience p <= 0)%Z ->
  rest p clean X y (a ++ b) e = (let* failed := main_loop p X y a in if failed then ret tt else rest p clean X y b) e.
Proof. intros HP. unfold rest at 1, bind. rewrite loop_split by exact HP. unfold bind. destruct (main_loop p X y a e) as [[[]|x] u]; reflexivity. Qed.
