(* The optimizers with other solutions on the heap. *)
From Coq Require Import Lia.
From Verif Require Import PyNum PyList PyMon PyRng PyStat L_Num L_List M_Matching M_Rule M_Mixing M_GenomeOps M_Solution M_Composition M_GA M_Saga M_Sas M_Abc M_Swarm M_Aco L_Invariance S_Units L_Units L_UnitsDisc L_Tandem L_OrderComp S_Cold L_Ratio L_Cold.

Section Start.
Context {K : skind}.
(* nothing old is used *)
Definition apart (s s' : hst K) : world := mkWorld (length (garr s)) (length (garr s')) (length (sols s)) (length (sols s')) [] [].
(* one old solution and its array is *)
Definition sharing (s s' : hst K) (r r' a a' : nat) : world := mkWorld (length (garr s)) (length (garr s')) (length (sols s)) (length (sols s')) [(r, r')] [(a, a')].
Lemma moved_in w (s s' : hst K) q : length (garr s) = wn w -> length (garr s') = wn' w -> length (sols s) = wm w -> length (sols s') = wm' w -> apinned w (garr s) (garr s') -> pinned K w (sols s) (sols s') -> moved K w (mkH (garr s) (sols s) q) (mkH (garr s') (sols s') q).
Proof. intros. rewrite <- (app_nil_r (garr s)). rewrite <- (app_nil_r (garr s')). rewrite <- (app_nil_r (sols s)). rewrite <- (app_nil_r (sols s')). constructor; auto. Qed.
Lemma moved_apart (s s' : hst K) q : moved K (apart s s') (mkH (garr s) (sols s) q) (mkH (garr s') (sols s') q).
Proof. apply moved_in; try reflexivity; (split; [intros a a' b b' []|intros r r' []]). Qed.
Lemma one_alone p : one_one [p].
Proof. intros a a' b b' [H|[]] [J|[]]. rewrite H in J. injection J as <- <-. split; reflexivity. Qed.
Lemma moved_sharing (s s' : hst K) r r' o o' b q : nth_error (sols s) r = Some o -> nth_error (sols s') r' = Some o' -> nth_error (garr s) (gref o) = Some b -> nth_error (garr s') (gref o') = Some b -> satt o = satt o' -> sext o = sext o' ->
  moved K (sharing s s' r r' (gref o) (gref o')) (mkH (garr s) (sols s) q) (mkH (garr s') (sols s') q).
Proof.
  intros H1 H2 H3 H4 H5 H6. apply moved_in; try reflexivity.
  - split; [apply one_alone|]. intros x x' [H|[]]. injection H as <- <-. exists b. auto.
  - split; [apply one_alone|]. intros x x' [H|[]]. injection H as <- <-. exists o, o'. split; [exact H1|]. split; [exact H2|]. split; [left; left; reflexivity|auto].
Qed.
Variables (O : optimizer K) (RI : ostate O -> ostate O -> Prop).
Hypothesis H : forall w L (E : env L), runs_alike K w L E O RI.
Hypothesis HZ : forall i i', RI i i' -> osize O i = osize O i'.
Lemma step_in w L (E : env L) c q (st st' : comp O) s s' : moved K w (mkH (garr s) (sols s) q) (mkH (garr s') (sols s') q) -> cwarm c = false \/ Forall2 (ref w) (cpop st) (cpop st') -> carchive c = false \/ Forall2 (ref w) (carch st) (carch st') -> RI (cint st) (cint st') ->
  same_step RI (optimize O c E q st s) (optimize O c E q st' s') /\ same_archive (optimize O c E q st s) (optimize O c E q st' s') /\
  same_best ((let* z := optimize O c E q st in elitist z) s) ((let* z := optimize O c E q st' in elitist z) s').
Proof.
  intros HP HW HA HI. pose proof (mv_optimize K w L E O RI c q st st' (H w L E) HZ HW HA HI _ _ HP) as HT. change (optimize O c E q st (mkH (garr s) (sols s) q)) with (optimize O c E q st s) in HT. change (optimize O c E q st' (mkH (garr s') (sols s') q)) with (optimize O c E q st' s') in HT.
  unfold same_step, same_archive, same_best, bind. destruct (optimize O c E q st s) as [[a|e] t], (optimize O c E q st' s') as [[a'|e'] t']; try contradiction; destruct HT as [HM HC].
  - split; [destruct HC as (H1 & _ & H4); split; [apply (views_same K _ _ _ _ _ HM H1)|]; split; [exact H4|exact (moved_rng K _ _ _ HM)]|]. split; [apply (views_same K _ _ _ _ _ HM), HC|].
    pose proof (mv_elitist K w RI a a' HC _ _ HM) as HB. destruct (elitist a t) as [[[r|]|e] u], (elitist a' t') as [[[r'|]|e'] u']; try contradiction; destruct HB as [HU HB]; try contradiction; try exact I; [|exact HB]. apply (view_same K _ _ _ _ _ HU HB).
  - split; [split; [exact HC|exact (moved_rng K _ _ _ HM)]|]. split; [exact I|exact HC].
Qed.
Lemma afresh_with L (E : env L) c q (st st' : comp O) s s' : cwarm c = false -> carchive c = false -> RI (cint st) (cint st') ->
  same_step RI (optimize O c E q st s) (optimize O c E q st' s') /\ same_best ((let* z := optimize O c E q st in elitist z) s) ((let* z := optimize O c E q st' in elitist z) s').
Proof. intros HW HA HI. destruct (step_in (apart s s') L E c q st st' s s' (moved_apart s s' q) (or_introl HW) (or_introl HA) HI) as (H1 & _ & H2). auto. Qed.
Lemma archive_with : archive_only O RI.
Proof.
  intros L E c q st st' s s' HW HL HF HV HI. destruct (carch st) as [|r [|r2 l]] eqn:Ea; [| |cbn in HL; lia].
  - apply (step_in (apart s s')); auto; [apply moved_apart|]. right. rewrite Ea. destruct (carch st'); [constructor|discriminate].
  - destruct (carch st') as [|r' [|r2 l]] eqn:Ea'; try discriminate. cbn in HV. injection HV as HV. inversion HF as [|? ? HN _ e1]. subst. unfold view in HV, HN.
    destruct (nth_error (sols s) r) as [o|] eqn:E1; [|contradiction HN; reflexivity]. destruct (nth_error (garr s) (gref o)) as [b|] eqn:E2; [|contradiction HN; reflexivity].
    destruct (nth_error (sols s') r') as [o'|] eqn:E3; [|discriminate]. destruct (nth_error (garr s') (gref o')) as [b'|] eqn:E4; [|discriminate]. injection HV as <- HV1 HV2.
    apply (step_in (sharing s s' r r' (gref o) (gref o'))); auto; [apply (moved_sharing s s' r r' o o' b q); auto|]. right. rewrite Ea, Ea'. apply Forall2_cons; [left; left; reflexivity|apply Forall2_nil].
Qed.
End Start.
(* the start of two runs on heaps that look the same *)
Lemma picture_world {K} {O : optimizer K} (s s' : hst K) (st st' : comp O) : same_picture s s' (cpop st ++ carch st) (cpop st' ++ carch st') -> length (cpop st) = length (cpop st') ->
  exists w, (forall q, moved K w (mkH (garr s) (sols s) q) (mkH (garr s') (sols s') q)) /\ Forall2 (ref w) (cpop st) (cpop st') /\ Forall2 (ref w) (carch st) (carch st').
Proof.
  intros (P & Q & HP & HQ & HF & HO & HB) HL. set (w := mkWorld (length (garr s)) (length (garr s')) (length (sols s)) (length (sols s')) P Q). exists w. split.
  { intros q. apply moved_in; try reflexivity; (split; [assumption|]); [exact HB|]. intros r r' Hr. destruct (HO r r' Hr) as (o & o' & H1 & H2 & H3 & H4 & H5). exists o, o'. split; [exact H1|]. split; [exact H2|]. split; [left; exact H3|auto]. }
  assert (HG : Forall2 (ref w) (cpop st ++ carch st) (cpop st' ++ carch st')) by (clear - HF; induction HF; constructor; [left; assumption|assumption]). revert HL HG. generalize (cpop st) (cpop st') (carch st) (carch st'). clear. intros l l' m m'. revert l'.
  induction l as [|x l IH]; intros [|x' l'] HL HG; cbn in *; try discriminate; [split; [constructor|exact HG]|]. inversion HG; subst. destruct (IH l') as [J1 J2]; [congruence|assumption|]. split; [constructor; assumption|exact J2].
Qed.
Lemma picture_with {K} (O : optimizer K) : (forall w L (E : env L), runs_alike K w L E O eq) -> sees_picture O.
Proof.
  intros H L E c q st st' s s' HPic HL HI. destruct (picture_world s s' st st' HPic HL) as (w & HM & HR1 & HR2). specialize (HM q). assert (HZ : forall i i', i = i' -> osize O i = osize O i') by (intros i i' <-; reflexivity).
  destruct (step_in O eq H HZ w L E c q st st' s s' HM (or_intror HR1) (or_intror HR2) HI) as (_ & _ & HBest). split; [|exact HBest].
  pose proof (mv_optimize K w L E O eq c q st st' (H w L E) HZ (or_intror HR1) (or_intror HR2) HI _ _ HM) as HT. change (optimize O c E q st (mkH (garr s) (sols s) q)) with (optimize O c E q st s) in HT. change (optimize O c E q st' (mkH (garr s') (sols s') q)) with (optimize O c E q st' s') in HT.
  destruct (optimize O c E q st s) as [[a|e] t], (optimize O c E q st' s') as [[a'|e'] t']; try contradiction; destruct HT as [HT HC].
  - destruct HC as (H1 & H2 & H3). split; [|split; [exact (L_List.Forall2_len _ _ _ H1)|split; [exact H3|exact (moved_rng K _ _ _ HT)]]]. intros HV. apply (picture_after K w); [exact HT|apply Forall2_app; assumption|exact HV].
  - split; [exact HC|exact (moved_rng K _ _ _ HT)].
Qed.
Lemma mv_compose {K} (O : optimizer K) w L c (steps : list (env L * rng)) : (forall (E : env L), runs_alike K w L E O eq) -> forall st st' : comp O, comp_alike K w eq st st' -> tandem (moved K w) (comp_alike K w eq) (compose O c steps st) (compose O c steps st').
Proof.
  intros H. induction steps as [|[E q] steps IH]; intros st st' HS; cbn [compose]; [apply tan_ret; exact HS|]. eapply tan_bind; [|exact IH]. destruct HS as (H1 & H2 & H3). apply mv_optimize; auto. intros i i' <-. reflexivity.
Qed.
Lemma pictures_with {K} (O : optimizer K) : (forall w L (E : env L), runs_alike K w L E O eq) -> sees_picture_always O.
Proof.
  intros H L steps c st st' [A S q] [A' S' q'] HPic HL HI HQ. cbn in HQ. subst q'. destruct (picture_world _ _ st st' HPic HL) as (w & HM & HR1 & HR2). specialize (HM q). cbn [garr sols] in HM.
  pose proof (mv_compose O w L c steps (H w L) st st' (conj HR1 (conj HR2 HI)) _ _ HM) as HT. unfold same_step, same_archive, same_best, bind.
  destruct (compose O c steps st (mkH A S q)) as [[a|e] t], (compose O c steps st' (mkH A' S' q)) as [[a'|e'] t']; try contradiction; destruct HT as [HT HC].
  - split; [destruct HC as (H1 & _ & H4); split; [apply (views_same K _ _ _ _ _ HT H1)|]; split; [exact H4|exact (moved_rng K _ _ _ HT)]|]. split; [apply (views_same K _ _ _ _ _ HT), HC|].
    pose proof (mv_elitist K w eq a a' HC _ _ HT) as HB. destruct (elitist a t) as [[[r|]|e] u], (elitist a' t') as [[[r'|]|e'] u']; try contradiction; destruct HB as [HU HB]; try contradiction; try exact I; [|exact HB]. apply (view_same K _ _ _ _ _ HU HB).
  - split; [split; [exact HC|exact (moved_rng K _ _ _ HT)]|]. split; [exact I|exact HC].
Qed.
Lemma afresh {K} (O : optimizer K) : (forall w L (E : env L), runs_alike K w L E O eq) -> starts_afresh O.
Proof. intros H L E c q st st' s s' HW HA HI. apply (afresh_with O eq H); auto. intros i i' <-. reflexivity. Qed.
Lemma forgetful {K} (O : optimizer K) : (forall i i' : ostate O, i = i') -> starts_afresh O -> forgets O.
Proof.
  intros HU H L E c q st st' s s' HW HA. destruct (H L E c q st st' s s' HW HA (HU _ _)) as [H1 H2]. split; [|exact H2]. unfold same_step in *. destruct (optimize O c E q st s) as [[a|e] t], (optimize O c E q st' s') as [[a'|e'] t']; auto. destruct H1 as (H3 & _ & H4). auto.
Qed.
Section Runs.
Variable Wd : world.
Local Notation RF := (ref Wd).
Section Any.
Variable K : skind.
Local Notation T := (tandem (moved K Wd)).
Variables (L : learner) (E : env L).
Lemma ga_moved c pop pop' : Forall2 RF pop pop' -> T (Forall2 RF) (ga_step c E pop) (ga_step c E pop').
Proof.
  intros H. unfold ga_step. eapply tan_bind; [apply mv_ranked; exact H|]. intros rk rk' HR. cbv zeta. eapply tan_bind; [apply mv_select; exact H|]. intros ps ps' HP. eapply tan_bind; [apply mv_offspring; [|exact HP]; intros a a' b b' Ha Hb; apply mv_cross; assumption|]. intros cs cs' HC.
  eapply (tan_bind _ (Forall2 RF)).
  { destruct (Nat.odd (g_size c)); [|apply tan_ret; exact HC]. eapply tan_bind; [apply tan_lift, both_res, Forall2_nth, Forall2_back; exact HP|]. intros l l' Hl. apply tan_ret. apply Forall2_app; [exact HC|]. apply Forall2_cons; [exact Hl|apply Forall2_nil]. }
  intros ds ds' HD. eapply tan_bind; [apply (tan_mmap _ RF); [|exact HD]; intros r r' Hr; apply mv_flips; exact Hr|]. intros xs xs' HX. apply mv_fit_all. apply Forall2_app; [apply Forall2_part; exact HR|exact HX].
Qed.
Lemma saga_moved size ratio sel (cross cross' : nat -> nat -> HSt K nat) (mutate mutate' : nat -> HSt K nat) pop pop' :
  (forall a a' b b', RF a a' -> RF b b' -> T RF (cross a b) (cross' a' b')) -> (forall r r', RF r r' -> T RF (mutate r) (mutate' r')) -> Forall2 RF pop pop' ->
  T (Forall2 RF) (saga_generation E size ratio sel cross mutate pop) (saga_generation E size ratio sel cross' mutate' pop').
Proof.
  intros HC HM H. unfold saga_generation. eapply tan_bind; [apply mv_ranked; exact H|]. intros rk rk' HR. cbv zeta. eapply tan_bind; [apply mv_select; exact H|]. intros ps ps' HP. eapply tan_bind; [apply mv_offspring; [exact HC|exact HP]|]. intros cs cs' HCs.
  eapply tan_bind; [apply (tan_mmap _ RF); [exact HM|exact HCs]|]. intros xs xs' HX. apply mv_fit_all. apply Forall2_app; [apply Forall2_part; exact HR|exact HX].
Qed.
End Any.
Lemma ga_runs c L E : runs_alike plain Wd L E (ga c) eq.
Proof.
  intros ini pop pop' i ? H <-. cbn [orun ga]. unfold ga_run. eapply tan_bind; [apply mv_fit_all; exact H|]. intros x x' Hx. eapply tan_bind; [apply (mv_iterate plain _ (Forall2 RF)); [|exact Hx]; intros y y' Hy; apply ga_moved; exact Hy|]. intros z z' Hz. apply tan_ret. auto.
Qed.
Lemma rs_runs k size L E : runs_alike plain Wd L E (rs k size) eq.
Proof.
  intros ini pop pop' i ? H <-. cbn [orun rs]. unfold rs_run. eapply tan_bind; [apply mv_fit_all; exact H|]. intros _ _ _. eapply (tan_bind _ (Forall2 RF)); [|intros z z' Hz; apply tan_ret; auto]. apply mv_times. eapply tan_bind; [|intros y y' Hy; apply mv_fittest; exact Hy].
  apply mv_times. eapply tan_bind; [apply mv_init|]. intros r r' Hr. apply mv_fit. exact Hr.
Qed.
Lemma saga1_runs c L E : runs_alike plain Wd L E (saga1 c) eq.
Proof.
  intros ini pop pop' i ? H <-. cbn [orun saga1]. unfold s1_run. eapply tan_bind; [apply tan_value|]. intros _ _ _. eapply tan_bind; [apply mv_fit_all; exact H|]. intros x x' Hx.
  apply (mv_iterate plain _ (fun z z' => Forall2 RF (fst z) (fst z') /\ snd z = snd z')); [|cbn; auto]. intros [p r] [p' r'] [Hp Hr]. cbn in Hp, Hr. subst r'. unfold s1_step. eapply tan_bind; [apply mv_fitnesses; exact Hp|]. intros fs fs' <-. eapply tan_bind; [apply tan_value|]. intros r1 r1' <-.
  eapply tan_bind; [apply saga_moved; [| |exact Hp]; [intros a a' b b' Ha Hb; apply mv_cross; assumption|intros q q' Hq; apply mv_flips; exact Hq]|]. intros z z' Hz. apply tan_ret. auto.
Qed.
Lemma saga3_runs c L E : runs_alike saga_sol Wd L E (saga3 c) eq.
Proof.
  intros ini pop pop' i ? H <-. cbn [orun saga3]. unfold s3_run. eapply tan_bind; [apply tan_value|]. intros _ _ _. eapply tan_bind; [apply mv_fit_all; exact H|]. intros x x' Hx. eapply tan_bind; [apply (mv_iterate saga_sol _ (Forall2 RF)); [|exact Hx]; intros y y' Hy|intros z z' Hz; apply tan_ret; auto].
  apply saga_moved; [| |exact Hy].
  - intros a a' b b' Ha Hb. unfold saga_cross. eapply tan_bind; [apply mv_ext; exact Ha|]. intros xa xa' <-. eapply tan_bind; [apply mv_ext; exact Hb|]. intros xb xb' <-. do 3 (eapply tan_bind; [apply mv_rnd0|]; intros ? ? <-). eapply tan_bind; [apply mv_rnd1|]. intros u u' <-.
    eapply (tan_bind _ eq); [destruct (qlt u (s3_pmut c)); [|apply tan_ret; reflexivity]; do 2 (eapply tan_bind; [apply mv_rnd1|]; intros ? ? <-); eapply tan_bind; [apply mv_rnd0|]; intros ? ? <-; apply tan_ret; reflexivity|]. intros p p' <-.
    eapply tan_bind; [apply mv_cross; assumption|]. intros d d' Hd. eapply tan_bind; [apply mv_set_ext; exact Hd|]. intros _ _ _. apply tan_ret. exact Hd.
  - intros r r' Hr. unfold saga_flips. eapply tan_bind; [apply mv_ext; exact Hr|]. intros xa xa' <-. apply mv_flips. exact Hr.
Qed.
Lemma sas_runs c L E : runs_alike sas_sol Wd L E (sas c) eq.
Proof.
  intros ini pop pop' i ? H <-. cbn [orun sas]. unfold sas_run. eapply tan_bind; [apply mv_fit_all; exact H|]. intros x x' Hx. apply (mv_iterate sas_sol _ (fun z z' => Forall2 RF (fst z) (fst z') /\ snd z = snd z')); [|cbn; auto]. intros [p r] [p' r'] [Hp Hr]. cbn in Hp, Hr. subst r'. unfold sas_step. cbn [fst].
  eapply (tan_bind _ (Forall2 RF)).
  { unfold ageing. cbv zeta. eapply tan_bind; [apply mv_fitnesses; exact Hp|]. intros fs fs' <-. eapply tan_bind; [apply mv_ranked; exact Hp|]. intros rk rk' HR. eapply tan_bind; [apply tan_lift, both_res, Forall2_nth, Forall2_back, Forall2_part; exact HR|]. intros lw lw' Hl. eapply tan_bind; [apply mv_fitness; exact Hl|]. intros t t' <-.
    rewrite (L_List.Forall2_len _ _ _ Hp). eapply tan_bind; [apply (mv_miter sas_sol _ RF); [|exact Hp]; intros q q' Hq; eapply tan_bind; [apply mv_ext; exact Hq|]; intros a a' <-; eapply tan_bind; [apply mv_fitness; exact Hq|]; intros f f' <-; apply mv_set_ext; exact Hq|]. intros _ _ _.
    eapply (tan_bind _ (Forall2 (Forall2 RF))); [|intros k k' HK; apply tan_ret, Forall2_flat; exact HK]. apply (tan_mmap _ RF); [|exact Hp]. intros q q' Hq. eapply tan_bind; [apply mv_ext; exact Hq|]. intros a a' <-. apply tan_ret. destruct (Z.ltb 0 a); [apply Forall2_cons; [exact Hq|]|]; apply Forall2_nil. }
  intros ps ps' HP. eapply tan_bind; [apply mv_offspring; [|exact HP]; intros a a' b b' Ha Hb; apply mv_cross; assumption|]. intros cs cs' HC. eapply tan_bind; [apply (tan_mmap _ RF); [|exact HC]; intros q q' Hq; apply mv_flips; exact Hq|]. intros xs xs' HX.
  eapply tan_bind; [apply mv_fit_all, Forall2_app; [exact HP|exact HX]|]. intros z z' Hz. apply tan_ret. cbn. split; [exact Hz|apply (L_List.Forall2_len _ _ _ HP)].
Qed.
(* bees *)
Definition same_src (f f' : source) : Prop := RF (src f) (src f') /\ trials f = trials f'.
Local Notation T := (tandem (moved plain Wd)).
Lemma srcs_ref fs fs' : Forall2 same_src fs fs' -> Forall2 RF (map src fs) (map src fs').
Proof. induction 1 as [|f f' fs fs' [H _] HF IH]; cbn; constructor; auto. Qed.
Lemma mv_greedy news news' fs fs' : Forall2 RF news news' -> Forall2 same_src fs fs' -> T (Forall2 same_src) (greedy_update news fs) (greedy_update news' fs').
Proof.
  intros HN. revert fs fs'. induction HN as [|a a' news news' Ha HN IH]; intros fs fs' HF; cbn [greedy_update]; [apply tan_ret; exact HF|]. destruct HF as [|f f' fs fs' Hf HF]; [apply tan_ret; constructor|]. pose proof Hf as [H1 H2].
  eapply tan_bind; [apply mv_fitness; exact Ha|]. intros x x' <-. eapply tan_bind; [apply mv_fitness; exact H1|]. intros y y' <-. cbv zeta. eapply tan_bind; [apply IH; exact HF|]. intros rest rest' HR. apply tan_ret. constructor; [|exact HR]. destruct (nlt y x); split; cbn; auto.
Qed.
Lemma combine_both {A B C D} (R : A -> B -> Prop) (Q : C -> D -> Prop) l l' k k' : Forall2 R l l' -> Forall2 Q k k' -> Forall2 (fun p p' => R (fst p) (fst p') /\ Q (snd p) (snd p')) (combine l k) (combine l' k').
Proof. intros H. revert k k'. induction H as [|a a' l l' Ha HL IH]; intros k k' [|b b' k0 k0' Hb HK]; cbn; constructor; auto. Qed.
Lemma mv_phase M c L (E : env L) fs fs' os os' : Forall2 same_src fs fs' -> Forall2 RF os os' -> T (Forall2 same_src) (bee_phase M c E fs os) (bee_phase M c E fs' os').
Proof.
  intros HF HO. unfold bee_phase. eapply (tan_bind _ (Forall2 RF)); [|intros z z' Hz; apply mv_greedy; assumption]. apply (tan_mmap _ (fun p p' => same_src (fst p) (fst p') /\ RF (snd p) (snd p'))); [|apply combine_both; assumption]. intros p p' [[H1 _] H2].
  eapply (tan_bind _ RF); [|intros z z' Hz; apply mv_fit; exact Hz]. unfold food_call. eapply tan_bind; [apply mv_genome; exact H1|]. intros x x' <-. eapply tan_bind; [apply mv_genome; exact H2|]. intros y y' <-. eapply (tan_bind _ eq); [|intros b b' <-; apply mv_clone_with; exact H1].
  unfold food_bits. destruct (be_food c); cbv zeta.
  - eapply tan_bind; [apply mv_rnd1|]. intros ? ? <-. unfold sigmoid_binarize. eapply tan_bind; [apply mv_rnd1|]. intros ? ? <-. apply tan_ret. reflexivity.
  - eapply tan_bind; [apply mv_rnd1|]. intros ? ? <-. apply tan_ret. reflexivity.
  - destruct (Z.ltb _ 0); [apply tan_raise|]. eapply tan_bind; [apply mv_rnd0|]. intros ? ? <-. apply tan_ret. reflexivity.
Qed.
Lemma bees_runs M c L E : runs_alike plain Wd L E (bees M c) eq.
Proof.
  intros ini pop pop' i ? H <-. cbn [orun bees]. unfold bee_run. eapply tan_bind; [apply mv_fit_all; exact H|]. intros x x' Hx. eapply (tan_bind _ (Forall2 same_src)); [|intros z z' Hz; apply tan_ret; cbn; split; [apply srcs_ref; exact Hz|reflexivity]].
  apply (mv_iterate plain _ (Forall2 same_src)).
  - intros fs fs' HF. unfold bee_step. eapply tan_bind; [apply mv_rnd, alike_choices, srcs_ref; exact HF|]. intros o o' Ho. eapply tan_bind; [apply mv_phase; assumption|]. intros f1 f1' H1. eapply tan_bind; [apply mv_fitnesses, srcs_ref; exact H1|]. intros w w' <-. cbv zeta.
    eapply tan_bind; [apply mv_rnd, choices_num_alike; [apply srcs_ref; exact H1|apply same_all]|]. intros o1 o1' Ho1. eapply tan_bind; [apply mv_phase; assumption|]. intros f2 f2' H2. apply (tan_mmap _ same_src); [|exact H2]. intros f f' [Hs Ht]. unfold scout. rewrite <- Ht.
    destruct (Nat.leb (be_limit c) (trials f)); [|apply tan_ret; split; assumption]. eapply tan_bind; [apply mv_init|]. intros r r' Hr. eapply tan_bind; [apply mv_fit; exact Hr|]. intros _ _ _. apply tan_ret. split; [exact Hr|reflexivity].
  - clear H. induction Hx as [|r r' x x' Hr Hx IH]; cbn; constructor; [split; [exact Hr|reflexivity]|exact IH].
Qed.
(* wolves *)
Lemma wolf_bits M p a lb w : T eq (match p with WCrossover => wolf_crossover M a lb w | WSigmoid => wolf_sigmoid M a lb w end) (match p with WCrossover => wolf_crossover M a lb w | WSigmoid => wolf_sigmoid M a lb w end).
Proof.
  destruct p.
  - unfold wolf_crossover. eapply (tan_bind _ eq).
    + apply tan_each. intros l. unfold binary_X, sigmoid_binarize. cbv zeta. do 2 (eapply tan_bind; [apply mv_rnd1|]; intros ? ? <-). eapply (tan_bind _ eq); [eapply tan_bind; [apply mv_rnd1|]; intros ? ? <-; apply tan_ret; reflexivity|]. intros ? ? <-. eapply tan_bind; [apply mv_rnd1|]. intros ? ? <-. apply tan_ret. reflexivity.
    + intros xs xs' <-. destruct (_ || _); [apply tan_raise|]. eapply tan_bind; [apply mv_rnd1|]. intros ? ? <-. apply tan_ret. reflexivity.
  - unfold wolf_sigmoid. eapply (tan_bind _ eq).
    + apply tan_each. intros l. unfold wolf_X. cbv zeta. do 2 (eapply tan_bind; [apply mv_rnd1|]; intros ? ? <-). apply tan_ret. reflexivity.
    + intros xs xs' <-. destruct (Nat.eqb _ 0); [apply tan_raise|]. unfold sigmoid_binarize. eapply tan_bind; [apply mv_rnd1|]. intros ? ? <-. apply tan_ret. reflexivity.
Qed.
Lemma wolves_runs M c L E : runs_alike plain Wd L E (wolves M c) eq.
Proof.
  intros ini pop pop' i ? H <-. cbn [orun wolves]. unfold wolf_run. eapply tan_bind; [apply mv_fit_all; exact H|]. intros x x' Hx. destruct (Nat.eqb (w_iter c) 0); [apply tan_raise|]. eapply (tan_bind _ (fun z z' : list nat * Q => Forall2 RF (fst z) (fst z') /\ snd z = snd z')); [|intros z z' [Hz _]; apply tan_ret; cbn; auto].
  apply (mv_iterate plain _ (fun z z' : list nat * Q => Forall2 RF (fst z) (fst z') /\ snd z = snd z')); [|cbn; auto]. intros [p a] [p' a'] [Hp Ha]. cbn in Hp, Ha. subst a'. unfold wolf_step. eapply tan_bind; [apply mv_ranked; exact Hp|]. intros rk rk' HR.
  eapply (tan_bind _ (Forall2 RF)); [|intros y y' Hy; eapply tan_bind; [apply mv_fit_all; exact Hy|]; intros z z' Hz; apply tan_ret; cbn; auto]. apply (tan_mmap _ RF); [|exact Hp]. intros r r' Hr. unfold wolf_move. eapply tan_bind; [apply mv_genome; exact Hr|]. intros w w' <-.
  eapply (tan_bind _ eq); [apply (tan_weak _ (Forall2 eq)); [apply L_Units.eq_Forall2|]; apply (tan_mmap _ RF); [intros l l' Hl; apply mv_genome; exact Hl|apply Forall2_part; exact HR]|]. intros lb lb' <-. eapply tan_bind; [apply wolf_bits|]. intros b b' <-. apply mv_clone_with. exact Hr.
Qed.
(* the second self-adaptive algorithm *)
Definition same_s2 (z z' : s2state) : Prop := z_iter z = z_iter z' /\ Forall2 RF (z_pop z) (z_pop z') /\ z_stats z = z_stats z' /\ z_vmin z = z_vmin z' /\ z_vmax z = z_vmax z' /\ z_rates z = z_rates z'.
Lemma saga2_runs t c L E : runs_alike plain Wd L E (saga2 t c) eq.
Proof.
  intros ini pop pop' i ? H <-. cbn [orun saga2]. unfold s2_run. eapply tan_bind; [apply tan_value|]. intros _ _ _. eapply tan_bind; [apply mv_fit_all; exact H|]. intros x x' Hx. eapply tan_bind; [apply mv_fitnesses; exact Hx|]. intros fs fs' <-. cbv zeta. eapply tan_bind; [apply tan_value|]. intros st st' <-.
  eapply (tan_bind _ same_s2); [|intros z z' (_ & H2 & _ & _ & _ & H6); apply tan_ret; auto]. apply (mv_iterate plain _ same_s2); [|repeat split; exact Hx]. intros [zi zp zs z1 z2 zr] [zi' zp' zs' z1' z2' zr'] (E1 & HP & E2 & E3 & E4 & E5). cbn in E1, HP, E2, E3, E4, E5. subst.
  unfold s2_step. cbn [z_iter z_pop z_stats z_vmin z_vmax z_rates]. eapply (tan_bind _ (Forall2 RF)).
  { unfold s2_breed. eapply tan_bind; [apply mv_ranked; exact HP|]. intros rk rk' HR. cbv zeta. eapply tan_bind; [apply mv_select; exact HP|]. intros ps ps' HPs. eapply tan_bind; [apply mv_offspring; [|exact HPs]; intros a a' b b' Ha Hb; eapply tan_bind; [apply mv_fitness; exact Ha|]; intros fa fa' <-; eapply tan_bind; [apply mv_fitness; exact Hb|]; intros fb fb' <-; apply mv_cross; assumption|]. intros cs cs' HC.
    eapply tan_bind; [apply mv_fit_all; exact HC|]. intros _ _ _. eapply tan_bind; [apply (tan_mmap _ RF); [|exact HC]; intros q q' Hq; eapply tan_bind; [apply mv_fitness; exact Hq|]; intros f f' <-; apply mv_flips; exact Hq|]. intros xs xs' HX. apply mv_fit_all, Forall2_app; [apply Forall2_part; exact HR|exact HX]. }
  intros y y' Hy. eapply tan_bind; [apply mv_fitnesses; exact Hy|]. intros gs gs' <-. eapply tan_bind; [apply tan_value|]. intros w w' <-. destruct (Nat.eqb zi' 0); [apply tan_ret; repeat split; exact Hy|]. destruct (diversity t z1' z2' w gs) as [d [v1 v2]]. eapply tan_bind; [apply mv_fitnesses; exact HP|]. intros os os' <-. eapply tan_bind; [apply tan_value|]. intros sm sm' <-. apply tan_ret. repeat split. exact Hy.
Qed.
(* ants *)
Definition plain_builder (B : builder) : Prop := forall L p (pool : list (rule L)), T eq (ph_build B L p pool) (ph_build B L p pool).
Lemma binary_plain A b : plain_builder (Binary A b).
Proof. intros L p pool. cbn [ph_build Binary]. unfold bin_build. eapply tan_bind; [apply tan_value|]. intros e e' <-. destruct (negb _); [apply tan_raise|]. cbv zeta. eapply tan_bind; [apply mv_rnd1|]. intros u u' <-. apply tan_ret. reflexivity. Qed.
Lemma complete_plain A b part : plain_builder (Complete A b part).
Proof.
  intros L p pool. cbn [ph_build Complete]. unfold com_build. eapply tan_bind; [apply tan_value|]. intros e e' <-. eapply tan_bind; [apply mv_rnd1|]. intros o o' <-. eapply (tan_bind _ eq); [|intros r r' <-; apply tan_ret; reflexivity].
  generalize (@nil nat). induction o as [|j o IH]; intros r; cbn [com_route]; [apply tan_ret; reflexivity|]. eapply (tan_bind _ eq); [|intros x x' <-; apply IH]. unfold com_visit. eapply tan_bind; [apply tan_value|]. intros w w' <-. eapply tan_bind; [apply mv_rnd1|]. intros u u' <-. apply tan_ret. reflexivity.
Qed.
Lemma aco_runs B c (RI : option (ph B) -> option (ph B) -> Prop) L E : plain_builder B -> (forall i i', RI i i' -> (if a_warm c then i else None) = (if a_warm c then i' else None)) -> (forall p, RI (Some p) (Some p)) -> runs_alike plain Wd L E (aco B c) RI.
Proof.
  intros HB HI HS ini pop pop' i i' H Hi. cbn [orun aco]. unfold aco_run. rewrite (HI _ _ Hi). eapply tan_bind; [apply tan_value|]. intros p p' <-. eapply tan_bind; [apply mv_fit_all; exact H|]. intros x x' Hx.
  eapply (tan_bind _ (fun z z' : list nat * ph B => Forall2 RF (fst z) (fst z') /\ snd z = snd z')); [|intros z z' [H1 H2]; apply tan_ret; cbn; rewrite H2; auto]. apply (mv_iterate plain _ (fun z z' : list nat * ph B => Forall2 RF (fst z) (fst z') /\ snd z = snd z')); [|cbn; auto].
  intros [q a] [q' a'] [Hq Ha]. cbn in Hq, Ha. subst a'. unfold aco_step. eapply tan_bind; [apply (mv_miter plain _ RF); [|exact Hq]; intros r r' Hr; eapply tan_bind; [apply HB|]; intros b b' <-; apply mv_set_genome; exact Hr|]. intros _ _ _. eapply tan_bind; [apply mv_fit_all; exact Hq|]. intros _ _ _. cbv zeta.
  eapply tan_bind; [apply mv_ranked; exact Hq|]. intros rk rk' HR. eapply (tan_bind _ eq); [|intros ms ms' <-; apply tan_ret; cbn; auto]. apply (tan_weak _ (Forall2 eq)); [apply L_Units.eq_Forall2|]. apply (tan_mmap _ RF); [|apply Forall2_part; exact HR]. intros r r' Hr. eapply tan_bind; [apply mv_genome; exact Hr|]. intros b b' <-. eapply tan_bind; [apply mv_fitness; exact Hr|]. intros f f' <-. apply tan_ret. reflexivity.
Qed.
(* particles *)
Definition same_part (p p' : particle) : Prop := RF (p_sol p) (p_sol p') /\ RF (p_best p) (p_best p') /\ p_pos p = p_pos p' /\ p_bestpos p = p_bestpos p' /\ p_vel p = p_vel p'.
Lemma mv_best_by key ps ps' : (forall p p', same_part p p' -> RF (key p) (key p')) -> Forall2 same_part ps ps' -> T same_part (best_by key ps) (best_by key ps').
Proof.
  intros HK H. unfold best_by. eapply (tan_bind _ (Forall2 (fun a b => fst a = fst b /\ same_part (snd a) (snd b)))).
  - apply (tan_mmap _ same_part); [|exact H]. intros p p' Hp. eapply tan_bind; [apply mv_fitness, HK; exact Hp|]. intros f f' <-. apply tan_ret. auto.
  - intros ks ks' HS. eapply tan_bind; [apply tan_lift, both_res, (pymax_related (fun a b : num * particle => fst a = fst b /\ same_part (snd a) (snd b))); [|exact HS]; intros a b a' b' [E1 _] [E2 _]; rewrite E1, E2; reflexivity|]. intros k k' [_ Hk]. apply tan_ret. exact Hk.
Qed.
Lemma mv_first ps ps' : Forall2 same_part ps ps' -> T same_part (first_particle ps) (first_particle ps').
Proof. intros H. unfold first_particle. apply tan_lift, both_res, Forall2_nth. exact H. Qed.
Lemma mv_binarize M xs : T eq (sigmoid_binarize M xs) (sigmoid_binarize M xs).
Proof. unfold sigmoid_binarize. eapply tan_bind; [apply mv_rnd1|]. intros u u' <-. apply tan_ret. reflexivity. Qed.
Lemma mv_init_particle mv r r' : RF r r' -> T same_part (init_particle mv r) (init_particle mv r').
Proof.
  intros H. unfold init_particle. eapply tan_bind; [apply mv_genome; exact H|]. intros b b' <-. destruct mv; cbv zeta.
  - do 2 (eapply tan_bind; [apply mv_rnd1|]; intros ? ? <-). eapply tan_bind; [apply mv_clone; exact H|]. intros k k' Hk. apply tan_ret. repeat split; assumption.
  - eapply tan_bind; [apply mv_rnd1|]; intros ? ? <-. eapply tan_bind; [apply mv_clone; exact H|]. intros k k' Hk. apply tan_ret. repeat split; assumption.
  - eapply tan_bind; [apply mv_clone; exact H|]. intros k k' Hk. apply tan_ret. repeat split; assumption.
Qed.
Lemma mv_best_random ps ps' k : Forall2 same_part ps ps' -> T same_part (best_random ps k) (best_random ps' k).
Proof. intros H. unfold best_random. eapply tan_bind; [apply mv_rnd, alike_choices; exact H|]. intros s s' Hs. apply mv_best_by; [intros p p' Hp; apply Hp|exact Hs]. Qed.
Lemma positions_same ps ps' : Forall2 same_part ps ps' -> map p_pos ps = map p_pos ps'.
Proof. induction 1 as [|p p' ps ps' Hp H IH]; cbn; [reflexivity|]. f_equal; [apply Hp|exact IH]. Qed.
Lemma mv_move M mv a ps ps' : Forall2 same_part ps ps' -> T (Forall2 same_part) (move M mv a ps) (move M mv a ps').
Proof.
  intros H. destruct mv as [b c vm| |pl na]; cbn [move].
  - eapply tan_bind; [apply mv_best_by; [intros p p' Hp; apply Hp|exact H]|]. intros g g' (_ & _ & Hg & _). rewrite <- Hg. eapply tan_bind; [apply mv_first; exact H|]. intros p0 p0' (_ & _ & H0 & _). rewrite <- H0. apply (tan_mmap _ same_part); [|exact H]. intros p p' (H1 & H2 & H3 & H4 & H5). unfold classic_move. cbv zeta. rewrite <- H3, <- H4, <- H5.
    do 2 (eapply tan_bind; [apply mv_rnd1|]; intros ? ? <-). eapply tan_bind; [apply mv_binarize|]. intros ? ? <-. eapply tan_bind; [apply mv_set_genome; exact H1|]. intros _ _ _. apply tan_ret. repeat split; assumption.
  - eapply tan_bind; [apply mv_best_by; [intros p p' Hp; apply Hp|exact H]|]. intros g g' (_ & _ & Hg & _). rewrite <- Hg. eapply tan_bind; [apply mv_first; exact H|]. intros p0 p0' (_ & _ & H0 & _). rewrite <- H0, <- (positions_same _ _ H). apply (tan_mmap _ same_part); [|exact H]. intros p p' (H1 & H2 & H3 & H4 & H5). unfold quantum_move. cbv zeta. rewrite <- H3, <- H4.
    do 2 (eapply tan_bind; [apply mv_rnd1|]; intros ? ? <-). eapply tan_bind; [apply mv_rnd0|]. intros ? ? <-. eapply tan_bind; [apply mv_binarize|]. intros ? ? <-. eapply tan_bind; [apply mv_set_genome; exact H1|]. intros _ _ _. apply tan_ret. repeat split; assumption.
  - eapply (tan_bind _ eq); [apply (tan_weak _ (Forall2 eq)); [apply L_Units.eq_Forall2|]; apply (tan_mmap _ same_part); [|exact H]; intros p p' Hp; apply mv_genome, Hp|]. intros gs gs' <-. eapply tan_bind; [apply mv_first; exact H|]. intros p0 p0' (H0 & _). eapply tan_bind; [apply mv_genome; exact H0|]. intros g0 g0' <-. cbv zeta. eapply tan_bind; [apply mv_rnd1|]. intros me me' <-.
    eapply (tan_bind _ eq).
    + apply (tan_weak _ (Forall2 eq)); [apply L_Units.eq_Forall2|]. apply (tan_mmap _ same_part); [|exact H]. intros p p' (H1 & H2 & _). unfold attractor. eapply tan_bind; [apply mv_genome; exact H2|]. intros ow ow' <-. eapply tan_bind; [apply mv_rnd1|]. intros us us' <-. eapply tan_bind; [apply mv_best_random; exact H|]. intros nb nb' (_ & Hn & _). eapply tan_bind; [apply mv_genome; exact Hn|]. intros gn gn' <-. cbv zeta.
      destruct (Nat.eqb _ 0); [|apply tan_ret; reflexivity]. eapply tan_bind; [apply mv_rnd1|]. intros q q' <-. eapply tan_bind; [apply mv_best_random; exact H|]. intros n2 n2' (_ & Hn2 & _). eapply tan_bind; [apply mv_genome; exact Hn2|]. intros g2 g2' <-. apply tan_ret. reflexivity.
    + intros at_ at_' <-. eapply (tan_bind _ eq); [|intros _ _ _; apply tan_ret; exact H]. apply (mv_miter plain _ (fun x x' : particle * list bool => same_part (fst x) (fst x') /\ snd x = snd x')); [|apply combine_both; [exact H|apply Forall2_eq]]. intros x x' [(H1 & _) H2]. rewrite <- H2. unfold binary_move.
      eapply tan_bind; [apply mv_genome; exact H1|]. intros ow ow' <-. eapply tan_bind; [apply mv_rnd1|]. intros u u' <-. destruct (Qeq_bool u 0); [apply tan_raise|]. cbv zeta. eapply tan_bind; [apply mv_rnd1|]. intros us us' <-. apply mv_write. exact H1.
Qed.
Lemma swarm_runs M c L E : runs_alike plain Wd L E (swarm M c) eq.
Proof.
  intros ini pop pop' i ? H <-. cbn [orun swarm]. unfold swarm_run. eapply tan_bind; [apply mv_fit_all; exact H|]. intros x x' Hx. destruct (Nat.eqb (ps_iter c) 0); [apply tan_raise|]. eapply tan_bind; [apply (tan_mmap _ RF); [apply mv_init_particle|exact Hx]|]. intros ps ps' HP.
  eapply (tan_bind _ (fun z z' : list particle * Q => Forall2 same_part (fst z) (fst z') /\ snd z = snd z')); [|intros _ _ _; apply tan_ret; auto]. apply (mv_iterate plain _ (fun z z' : list particle * Q => Forall2 same_part (fst z) (fst z') /\ snd z = snd z')); [|cbn; auto].
  intros [q a] [q' a'] [Hq Ha]. cbn in Hq, Ha. subst a'. unfold swarm_step. eapply tan_bind; [apply mv_move; exact Hq|]. intros p1 p1' H1. eapply tan_bind; [apply mv_fit_all; exact Hx|]. intros _ _ _. eapply (tan_bind _ (Forall2 same_part)); [|intros z z' Hz; apply tan_ret; cbn; auto].
  apply (tan_mmap _ same_part); [|exact H1]. intros p p' (K1 & K2 & K3 & K4 & K5). unfold update_best. eapply tan_bind; [apply mv_fitness; exact K1|]. intros f f' <-. eapply tan_bind; [apply mv_fitness; exact K2|]. intros fb fb' <-. rewrite <- K3, <- K5. destruct (nlt fb f); [|apply tan_ret; repeat split; assumption].
  eapply tan_bind; [apply mv_clone; exact K1|]. intros k k' Hk. apply tan_ret. repeat split; assumption.
Qed.
End Runs.
Lemma unit_one (i i' : unit) : i = i'.
Proof. destruct i, i'. reflexivity. Qed.
Lemma cold_afresh : (forall c, starts_afresh (ga c)) /\ (forall k size, starts_afresh (rs k size)) /\ (forall c, starts_afresh (saga1 c)) /\ (forall t c, starts_afresh (saga2 t c)) /\ (forall c, starts_afresh (saga3 c)) /\ (forall c, starts_afresh (sas c)) /\
  (forall M c, starts_afresh (bees M c)) /\ (forall M c, starts_afresh (swarm M c)) /\ (forall M c, starts_afresh (wolves M c)) /\ (forall A b c, starts_afresh (aco (Binary A b) c)) /\ forall A b part c, starts_afresh (aco (Complete A b part) c).
Proof.
  refine (conj _ (conj _ (conj _ (conj _ (conj _ (conj _ (conj _ (conj _ (conj _ (conj _ _)))))))))); intros; apply afresh; intros.
  - apply ga_runs. - apply rs_runs. - apply saga1_runs. - apply saga2_runs. - apply saga3_runs. - apply sas_runs. - apply bees_runs. - apply swarm_runs. - apply wolves_runs.
  - apply aco_runs; [apply binary_plain|intros i i' <-; reflexivity|reflexivity].
  - apply aco_runs; [apply complete_plain|intros i i' <-; reflexivity|reflexivity].
Qed.
Lemma aco_forgets B c : (forall w, plain_builder w B) -> a_warm c = false -> forgets (aco B c).
Proof.
  intros HB HW L E cc q st st' s s' H1 H2. apply (afresh_with (aco B c) (fun _ _ => True)); auto. intros. apply aco_runs; [apply HB|intros i i' _; rewrite HW; reflexivity|auto].
Qed.
Lemma cold_forgets : (forall c, forgets (ga c)) /\ (forall k size, forgets (rs k size)) /\ (forall c, forgets (saga3 c)) /\ (forall M c, forgets (bees M c)) /\ (forall M c, forgets (swarm M c)) /\ (forall M c, forgets (wolves M c)) /\
  (forall A b c, a_warm c = false -> forgets (aco (Binary A b) c)) /\ forall A b part c, a_warm c = false -> forgets (aco (Complete A b part) c).
Proof.
  destruct cold_afresh as (H1 & H2 & _ & _ & H3 & _ & H4 & H5 & H6 & _).
  refine (conj _ (conj _ (conj _ (conj _ (conj _ (conj _ (conj _ _))))))); intros; try (apply forgetful; [exact unit_one|auto]); apply aco_forgets; auto; intros; [apply binary_plain|apply complete_plain].
Qed.

Lemma cold_archive : (forall c, archive_only (ga c) (fun _ _ => True)) /\ (forall k size, archive_only (rs k size) (fun _ _ => True)) /\ (forall c, archive_only (saga1 c) eq) /\ (forall t c, archive_only (saga2 t c) eq) /\ (forall c, archive_only (saga3 c) (fun _ _ => True)) /\ (forall c, archive_only (sas c) eq) /\
  (forall M c, archive_only (bees M c) (fun _ _ => True)) /\ (forall M c, archive_only (swarm M c) (fun _ _ => True)) /\ (forall M c, archive_only (wolves M c) (fun _ _ => True)) /\
  (forall A b c, archive_only (aco (Binary A b) c) eq) /\ (forall A b part c, archive_only (aco (Complete A b part) c) eq) /\
  (forall A b c, a_warm c = false -> archive_only (aco (Binary A b) c) (fun _ _ => True)) /\ forall A b part c, a_warm c = false -> archive_only (aco (Complete A b part) c) (fun _ _ => True).
Proof.
  assert (HE : forall K (O : optimizer K), (forall w L (E : env L), runs_alike K w L E O eq) -> archive_only O eq) by (intros K O H; apply archive_with; [exact H|intros i i' <-; reflexivity]).
  assert (HU : forall K (O : optimizer K), (forall i i' : ostate O, i = i') -> archive_only O eq -> archive_only O (fun _ _ => True)).
  { intros K O HU H L E c q st st' s s' HW HL HF HV _. destruct (H L E c q st st' s s' HW HL HF HV (HU _ _)) as (H1 & H2). split; [|exact H2]. unfold same_step in *. destruct (optimize O c E q st s) as [[a|e] t], (optimize O c E q st' s') as [[a'|e'] t']; auto. destruct H1 as (H3 & _ & H4). auto. }
  refine (conj _ (conj _ (conj _ (conj _ (conj _ (conj _ (conj _ (conj _ (conj _ (conj _ (conj _ (conj _ _)))))))))))); intros.
  - apply HU; [exact unit_one|]. apply HE. intros. apply ga_runs.
  - apply HU; [exact unit_one|]. apply HE. intros. apply rs_runs.
  - apply HE. intros. apply saga1_runs.
  - apply HE. intros. apply saga2_runs.
  - apply HU; [exact unit_one|]. apply HE. intros. apply saga3_runs.
  - apply HE. intros. apply sas_runs.
  - apply HU; [exact unit_one|]. apply HE. intros. apply bees_runs.
  - apply HU; [exact unit_one|]. apply HE. intros. apply swarm_runs.
  - apply HU; [exact unit_one|]. apply HE. intros. apply wolves_runs.
  - apply HE. intros. apply aco_runs; [apply binary_plain|intros i i' <-; reflexivity|reflexivity].
  - apply HE. intros. apply aco_runs; [apply complete_plain|intros i i' <-; reflexivity|reflexivity].
  - apply archive_with; auto. intros. apply aco_runs; [apply binary_plain|intros j j' _; rewrite H; reflexivity|auto].
  - apply archive_with; auto. intros. apply aco_runs; [apply complete_plain|intros j j' _; rewrite H; reflexivity|auto].
Qed.

Lemma cold_picture : (forall c, sees_picture (ga c)) /\ (forall k size, sees_picture (rs k size)) /\ (forall c, sees_picture (saga1 c)) /\ (forall t c, sees_picture (saga2 t c)) /\ (forall c, sees_picture (saga3 c)) /\ (forall c, sees_picture (sas c)) /\
  (forall M c, sees_picture (bees M c)) /\ (forall M c, sees_picture (swarm M c)) /\ (forall M c, sees_picture (wolves M c)) /\ (forall A b c, sees_picture (aco (Binary A b) c)) /\ forall A b part c, sees_picture (aco (Complete A b part) c).
Proof.
  refine (conj _ (conj _ (conj _ (conj _ (conj _ (conj _ (conj _ (conj _ (conj _ (conj _ _)))))))))); intros; apply picture_with; intros.
  - apply ga_runs. - apply rs_runs. - apply saga1_runs. - apply saga2_runs. - apply saga3_runs. - apply sas_runs. - apply bees_runs. - apply swarm_runs. - apply wolves_runs.
  - apply aco_runs; [apply binary_plain|intros i i' <-; reflexivity|reflexivity].
  - apply aco_runs; [apply complete_plain|intros i i' <-; reflexivity|reflexivity].
Qed.
Lemma cold_pictures : (forall c, sees_picture_always (ga c)) /\ (forall k size, sees_picture_always (rs k size)) /\ (forall c, sees_picture_always (saga1 c)) /\ (forall t c, sees_picture_always (saga2 t c)) /\ (forall c, sees_picture_always (saga3 c)) /\ (forall c, sees_picture_always (sas c)) /\
  (forall M c, sees_picture_always (bees M c)) /\ (forall M c, sees_picture_always (swarm M c)) /\ (forall M c, sees_picture_always (wolves M c)) /\ (forall A b c, sees_picture_always (aco (Binary A b) c)) /\ forall A b part c, sees_picture_always (aco (Complete A b part) c).
Proof.
  refine (conj _ (conj _ (conj _ (conj _ (conj _ (conj _ (conj _ (conj _ (conj _ (conj _ _)))))))))); intros; apply pictures_with; intros.
  - apply ga_runs. - apply rs_runs. - apply saga1_runs. - apply saga2_runs. - apply saga3_runs. - apply sas_runs. - apply bees_runs. - apply swarm_runs. - apply wolves_runs.
  - apply aco_runs; [apply binary_plain|intros i i' <-; reflexivity|reflexivity].
  - apply aco_runs; [apply complete_plain|intros i i' <-; reflexivity|reflexivity].
Qed.
