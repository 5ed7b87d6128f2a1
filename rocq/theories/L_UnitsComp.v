(* Solution composition in other units. *)
From Coq Require Import Lia.
From Verif Require Import PyNum PyList PyMon PyRng PyStat M_Matching M_Rule M_Mixing M_Solution M_Composition M_GenomeOps M_GA M_Saga M_Sas M_Abc M_Aco M_Swarm S_Units L_Units.

Lemma alike_iterate {K A} n (f f' : A -> HSt K A) x : (forall x, alike eq (f x) (f' x)) -> alike eq (iterate n f x) (iterate n f' x).
Proof. intros H. revert x. induction n as [|n IH]; intros x; cbn [iterate]; [apply alike_same|]. eapply alike_bind; [apply H|]. intros z z' <-. apply IH. Qed.
Lemma alike_each {S A B} (f f' : A -> St S B) l : (forall x, alike eq (f x) (f' x)) -> alike eq (mmap f l) (mmap f' l).
Proof.
  intros H. induction l as [|x l IH]; cbn [mmap]; [apply alike_same|]. eapply alike_bind; [apply H|]. intros z z' <-. eapply alike_bind; [exact IH|]. intros zs zs' <-. apply alike_same.
Qed.
Lemma alike_iter {S A} (f f' : A -> St S unit) l : (forall x, alike eq (f x) (f' x)) -> alike eq (miter f l) (miter f' l).
Proof. intros H. induction l as [|x l IH]; cbn [miter]; [apply alike_same|]. eapply alike_bind; [apply H|]. intros z z' <-. exact IH. Qed.
Lemma alike_times {K A} n (m m' : HSt K A) : alike eq m m' -> alike eq (times n m) (times n m').
Proof. intros H. induction n as [|n IH]; cbn [times]; [apply alike_same|]. eapply alike_bind; [exact H|]. intros z z' <-. eapply alike_bind; [exact IH|]. intros zs zs' <-. apply alike_same. Qed.

Section Task.
Variables (L L' : learner) (E : env L) (E' : env L').
Hypothesis HE : same_task E E'.
Lemma alike_fit {K} r : alike eq (M_Solution.fit (K := K) E r) (M_Solution.fit E' r).
Proof.
  unfold M_Solution.fit. eapply alike_bind; [apply alike_same|]. intros bits bits' <-. eapply alike_bind with (R := eq); [|intros x x' <-; apply alike_same].
  intros s. unfold rnd. pose proof (st_measured _ _ HE bits (hrng s)) as H. destruct (sol_fit L _ _ _ _ _ _ _) as [[x|e] g], (sol_fit L' _ _ _ _ _ _ _) as [[x'|e'] g']; try discriminate H; injection H as -> ->; auto.
Qed.
Lemma alike_fit_all {K} rs : alike eq (fit_all (K := K) E rs) (fit_all E' rs).
Proof. apply alike_each. intros r. apply alike_fit. Qed.
Lemma same_size : length (epool E) = length (epool E').
Proof. pose proof (f_equal (@length _) (st_rules _ _ HE)) as H. rewrite !map_length in H. exact H. Qed.
Lemma same_fitnesses : rmap (fitness_of L) (epool E) = rmap (fitness_of L') (epool E').
Proof.
  pose proof (st_rules _ _ HE) as H. revert H. generalize (epool E), (epool E'). intros p. induction p as [|r p IH]; intros [|r' p'] H; cbn in *; try discriminate; [reflexivity|]. injection H as H1 H2. rewrite (IH p' H2). unfold fitness_of, get_att. rewrite H1. reflexivity.
Qed.
Ltac al :=
  cbv zeta;
  lazymatch goal with
  | |- alike eq (fit_all _ _) _ => apply alike_fit_all
  | |- alike eq (M_Solution.fit _ _) _ => apply alike_fit
  | |- alike eq (iterate _ _ _) _ => apply alike_iterate; intros ?; al
  | |- alike eq (times _ _) _ => apply alike_times; al
  | |- alike eq (mmap _ _) _ => first [apply alike_same | apply alike_each; intros ?; al]
  | |- alike eq (miter _ _) _ => first [apply alike_same | apply alike_iter; intros ?; al]
  | |- alike eq (bind ?m _) (bind ?m _) => eapply (alike_bind eq eq); [apply alike_same|intros ? ? <-; al]
  | |- alike eq (bind _ _) _ => eapply (alike_bind eq eq); [al|intros ? ? <-; al]
  | |- alike eq (if ?b then _ else _) _ => destruct b; al
  | |- alike eq (match ?p with pair _ _ => _ end) _ => destruct p; al
  | |- _ => first [apply alike_same | idtac]
  end.
Lemma ga_same c ini pop st : alike eq (ga_run (K := plain) c L E ini pop st) (ga_run c L' E' ini pop st).
Proof. unfold ga_run. al. unfold ga_step. al. Qed.
Lemma rs_same n size ini pop st : alike eq (rs_run (K := plain) n size L E ini pop st) (rs_run n size L' E' ini pop st).
Proof. unfold rs_run. rewrite same_size. al. Qed.
Lemma generation_same {K} size ratio sel cross mut pop : alike eq (saga_generation (K := K) E size ratio sel cross mut pop) (saga_generation E' size ratio sel cross mut pop).
Proof. unfold saga_generation. al. Qed.
Lemma s1_same c ini pop st : alike eq (s1_run (K := plain) c L E ini pop st) (s1_run c L' E' ini pop st).
Proof. unfold s1_run. al. unfold s1_step. al. apply generation_same. Qed.
Lemma s2_same t c ini pop st : alike eq (s2_run (K := plain) t c L E ini pop st) (s2_run t c L' E' ini pop st).
Proof. unfold s2_run. al. unfold s2_step. al. unfold s2_breed. al. Qed.
Lemma s3_same c ini pop st : alike eq (s3_run c L E ini pop st) (s3_run c L' E' ini pop st).
Proof. unfold s3_run. al. apply generation_same. Qed.
Lemma sas_same c ini pop st : alike eq (sas_run c L E ini pop st) (sas_run c L' E' ini pop st).
Proof. unfold sas_run. al. unfold sas_step. al. Qed.
Lemma phase_same M c fs others : alike eq (bee_phase M c E fs others) (bee_phase M c E' fs others).
Proof. unfold bee_phase. al. Qed.
Lemma bees_same M c ini pop st : alike eq (bee_run M c L E ini pop st) (bee_run M c L' E' ini pop st).
Proof.
  unfold bee_run. al. unfold bee_step. eapply alike_bind; [apply alike_same|]. intros o o' <-. eapply alike_bind; [apply phase_same|]. intros f f' <-. eapply alike_bind; [apply alike_same|]. intros w w' <-.
  cbv zeta. eapply alike_bind; [apply alike_same|]. intros o1 o1' <-. eapply alike_bind; [apply phase_same|]. intros f1 f1' <-. al. unfold scout. rewrite same_size. al.
Qed.
Lemma swarm_same M c ini pop st : alike eq (swarm_run M c L E ini pop st) (swarm_run M c L' E' ini pop st).
Proof. unfold swarm_run. al. unfold swarm_step. al. Qed.
Lemma wolves_same M c ini pop st : alike eq (wolf_run M c L E ini pop st) (wolf_run M c L' E' ini pop st).
Proof. unfold wolf_run. al. unfold wolf_step. al. Qed.
Lemma aco_same A b c ini pop st : alike eq (aco_run (Binary A b) c L E ini pop st) (aco_run (Binary A b) c L' E' ini pop st).
Proof.
  unfold aco_run. rewrite same_size. al. unfold aco_step. al. cbn [ph_build Binary]. unfold bin_build, relative_fitness. rewrite same_size, same_fitnesses. apply alike_same.
Qed.
Lemma optimize_same {K} (O : optimizer K) c g st : impartial O -> alike eq (optimize O c E g st) (optimize O c E' g st).
Proof.
  intros HO. unfold optimize. cbv zeta. rewrite same_size. pose proof same_size as HL.
  eapply (alike_bind eq eq); [apply alike_same|]. intros ? ? <-. eapply alike_bind; [apply alike_same|]. intros ? ? <-.
  eapply (alike_bind eq eq); [destruct (carchive c); al|]. intros ? ? <-. eapply alike_bind with (R := eq).
  - destruct (epool E), (epool E'); try discriminate HL; [al|apply HO; exact HE].
  - intros [pop1 i1] [pop2 i2] [= <- <-]. eapply alike_bind with (R := eq); [destruct (carchive c); al|]. intros a a' <-. apply alike_same.
Qed.
End Task.

Lemma ga_impartial c : impartial (ga c). Proof. intros L L' E E' HE ini pop st. apply (ga_same L L' E E' HE). Qed.
Lemma rs_impartial n s : impartial (rs n s). Proof. intros L L' E E' HE ini pop st. apply (rs_same L L' E E' HE). Qed.
Lemma saga1_impartial c : impartial (saga1 c). Proof. intros L L' E E' HE ini pop st. apply (s1_same L L' E E' HE). Qed.
Lemma saga2_impartial t c : impartial (saga2 t c). Proof. intros L L' E E' HE ini pop st. apply (s2_same L L' E E' HE). Qed.
Lemma saga3_impartial c : impartial (saga3 c). Proof. intros L L' E E' HE ini pop st. apply (s3_same L L' E E' HE). Qed.
Lemma sas_impartial c : impartial (sas c). Proof. intros L L' E E' HE ini pop st. apply (sas_same L L' E E' HE). Qed.
Lemma bees_impartial M c : impartial (bees M c). Proof. intros L L' E E' HE ini pop st. apply (bees_same L L' E E' HE). Qed.
Lemma swarm_impartial M c : impartial (swarm M c). Proof. intros L L' E E' HE ini pop st. apply (swarm_same L L' E E' HE). Qed.
Lemma wolves_impartial M c : impartial (wolves M c). Proof. intros L L' E E' HE ini pop st. apply (wolves_same L L' E E' HE). Qed.
Lemma aco_impartial A b c : impartial (aco (Binary A b) c). Proof. intros L L' E E' HE ini pop st. apply (aco_same L L' E E' HE). Qed.
