(* What every step keeps, whatever it does to the heap: a predicate on the subclass attributes of all solutions. *)
From Coq Require Import Lia.
From Verif Require Import PyNum PyList PyMon PyRng PyStat L_Num L_List M_Matching M_Rule M_Mixing M_Solution S_Solution
  M_Composition M_GenomeOps.

Section Keeps.
Context {K : skind}.
Variable P : ext K -> Prop.
Hypothesis P0 : P (ext0 K).
Hypothesis Pcopy : forall x, P x -> P (ext_copy K x).

Definition all_ext (s : hst K) : Prop := Forall (fun o => P (sext o)) (sols s).
Definition keeps {T} (m : HSt K T) (Q : T -> Prop) : Prop :=
  forall s, all_ext s -> all_ext (snd (m s)) /\ forall a, fst (m s) = Ok a -> Q a.
Definition any {T} : T -> Prop := fun _ => True.

Lemma all_ext_has s r x : all_ext s -> has_ext s r x -> P x.
Proof. intros H (o & Ho & <-). apply nth_error_In in Ho. eapply Forall_forall in H; eauto. Qed.
Lemma keeps_ret {T} (a : T) (Q : T -> Prop) : Q a -> keeps (ret a) Q.
Proof. intros H s I. split; auto. intros b Hb. inversion Hb; subst; auto. Qed.
Lemma keeps_raise {T} e (Q : T -> Prop) : keeps (raise e) Q.
Proof. intros s I. split; auto. discriminate. Qed.
Lemma keeps_lift {T} (r : res T) (Q : T -> Prop) : (forall a, r = Ok a -> Q a) -> keeps (lift r) Q.
Proof. intros H s I. split; auto. Qed.
Lemma keeps_bind {T U} (m : HSt K T) (k : T -> HSt K U) (Q : T -> Prop) (R : U -> Prop) :
  keeps m Q -> (forall a, Q a -> keeps (k a) R) -> keeps (bind m k) R.
Proof.
  intros Hm Hk s I. unfold bind. destruct (Hm s I) as [I1 H1]. destruct (m s) as [[a|e] s1]; cbn in *.
  - apply Hk; auto.
  - split; auto. discriminate.
Qed.
Lemma keeps_weak {T} (m : HSt K T) (Q R : T -> Prop) : keeps m Q -> (forall a, Q a -> R a) -> keeps m R.
Proof. intros Hm H s I. destruct (Hm s I). split; auto. Qed.
Lemma keeps_any {T} (m : HSt K T) (Q : T -> Prop) : keeps m Q -> keeps m any.
Proof. intros H. eapply keeps_weak; eauto. intros; exact I. Qed.
Lemma keeps_seq {T U} (m : HSt K T) (k : T -> HSt K U) (R : U -> Prop) : keeps m any -> (forall a, keeps (k a) R) -> keeps (bind m k) R.
Proof. intros Hm Hk. eapply keeps_bind; eauto. Qed.
Lemma keeps_mmap {T U} (f : T -> HSt K U) (Q : U -> Prop) l : (forall x, keeps (f x) Q) -> keeps (mmap f l) (Forall Q).
Proof.
  intros H. induction l as [|x l IH]; cbn [mmap]; [apply keeps_ret; constructor|].
  eapply keeps_bind; [apply H|]. intros y Hy. eapply keeps_bind; [exact IH|]. intros ys Hys. apply keeps_ret. constructor; auto.
Qed.
Lemma keeps_miter {T} (f : T -> HSt K unit) l : (forall x, keeps (f x) any) -> keeps (miter f l) any.
Proof. intros H. induction l as [|x l IH]; cbn [miter]; [apply keeps_ret; exact I|]. apply keeps_seq; auto. Qed.
Lemma keeps_times {T} n (m : HSt K T) : keeps m any -> keeps (times n m) any.
Proof.
  intros H. induction n as [|n IH]; cbn [times]; [apply keeps_ret; exact I|]. apply keeps_seq; auto. intros x.
  apply keeps_seq; auto. intros xs. apply keeps_ret; exact I.
Qed.
Lemma keeps_iterate {T} k (f : T -> HSt K T) (Q : T -> Prop) x : Q x -> (forall y, Q y -> keeps (f y) Q) -> keeps (iterate k f x) Q.
Proof.
  intros Hx H. revert x Hx. induction k as [|k IH]; intros x Hx; cbn [iterate]; [apply keeps_ret; auto|].
  eapply keeps_bind; [apply H; auto|]. intros y Hy. auto.
Qed.
Lemma keeps_rnd {T} (f : rng -> res T * rng) : keeps (rnd f) any.
Proof. intros s I. unfold rnd. destruct (f (hrng s)) as [r g]. split; auto. intros; exact Logic.I. Qed.
Lemma keeps_rnd1 {T} (f : rng -> T * rng) : keeps (rnd1 f) any.
Proof. apply keeps_rnd. Qed.
Lemma keeps_set_rng g : keeps (set_rng g) any.
Proof. intros s I. split; auto. intros; exact Logic.I. Qed.
Lemma keeps_alloc_arr b : keeps (alloc_arr b) any.
Proof. intros s I. split; auto. intros; exact Logic.I. Qed.
Lemma keeps_put_arr a b : keeps (put_arr a b) any.
Proof. intros s I. split; auto. intros; exact Logic.I. Qed.
Lemma keeps_get_arr a : keeps (get_arr a) any.
Proof. intros s I. split; auto. intros; exact Logic.I. Qed.
Lemma keeps_get_sol r : keeps (get_sol r) (fun o => P (sext o)).
Proof.
  intros s I. split; auto. unfold get_sol; cbn. intros o Ho. destruct (nth_error (sols s) r) as [o'|] eqn:E; inversion Ho; subst.
  apply nth_error_In in E. eapply Forall_forall in I; eauto.
Qed.
Lemma Forall_update {T} (Q : T -> Prop) l i x : Forall Q l -> Q x -> Forall Q (update l i x).
Proof.
  intros H Hx. revert i. induction H as [|y l Hy Hl IH]; intros [|i]; cbn; constructor; auto.
Qed.
Lemma keeps_put_sol r o : P (sext o) -> keeps (put_sol r o) any.
Proof. intros H s I. split; [|intros; exact Logic.I]. apply Forall_update; auto. Qed.
Lemma keeps_alloc_sol o : P (sext o) -> keeps (alloc_sol o) any.
Proof. intros H s I. split; [|intros; exact Logic.I]. apply Forall_app. split; auto. Qed.

Lemma keeps_genome r : keeps (genome r) any.
Proof. eapply keeps_bind; [apply keeps_get_sol|]. intros. apply keeps_get_arr. Qed.
Lemma keeps_set_genome r b : keeps (set_genome r b) any.
Proof. eapply keeps_bind; [apply keeps_get_sol|]. intros o Ho. apply keeps_seq; [apply keeps_alloc_arr|]. intros. apply keeps_put_sol; auto. Qed.
Lemma keeps_write_genome r f : keeps (write_genome r f) any.
Proof. eapply keeps_bind; [apply keeps_get_sol|]. intros o Ho. apply keeps_seq; [apply keeps_get_arr|]. intros. apply keeps_put_arr; auto. Qed.
Lemma keeps_get_satt r : keeps (get_satt r) any.
Proof. eapply keeps_bind; [apply keeps_get_sol|]. intros o Ho. apply keeps_lift. intros; exact I. Qed.
Lemma keeps_fitness r : keeps (fitness r) any.
Proof. apply keeps_seq; [apply keeps_get_satt|]. intros. apply keeps_ret; exact I. Qed.
Lemma keeps_get_ext r : keeps (get_ext r) P.
Proof. eapply keeps_bind; [apply keeps_get_sol|]. intros o Ho. apply keeps_ret; auto. Qed.
Lemma keeps_set_ext r x : P x -> keeps (set_ext r x) any.
Proof. intros Hx. eapply keeps_bind; [apply keeps_get_sol|]. intros o Ho. apply keeps_put_sol; auto. Qed.
Lemma keeps_new_sol b : keeps (new_sol b) any.
Proof. apply keeps_seq; [apply keeps_alloc_arr|]. intros. apply keeps_alloc_sol; auto. Qed.
Lemma keeps_clone r : keeps (clone r) any.
Proof.
  apply keeps_seq; [apply keeps_genome|]. intros b. apply keeps_seq; [apply keeps_alloc_arr|]. intros a.
  apply keeps_seq; [apply keeps_get_satt|]. intros x. eapply keeps_bind; [apply keeps_get_ext|]. intros y Hy. apply keeps_alloc_sol; cbn; auto.
Qed.
Lemma keeps_clone_with r b : keeps (clone_with r b) any.
Proof. eapply keeps_bind; [apply keeps_get_ext|]. intros y Hy. apply keeps_seq; [apply keeps_alloc_arr|]. intros. apply keeps_alloc_sol; cbn; auto. Qed.
Lemma keeps_fit {L} (E : env L) r : keeps (fit E r) any.
Proof.
  apply keeps_seq; [apply keeps_genome|]. intros b. apply keeps_seq; [apply keeps_rnd|]. intros a.
  eapply keeps_bind; [apply keeps_get_sol|]. intros o Ho. apply keeps_seq; [apply keeps_put_sol; auto|]. intros. apply keeps_ret; exact I.
Qed.
Lemma keeps_fit_all {L} (E : env L) rs : keeps (fit_all E rs) any.
Proof. eapply keeps_any. apply keeps_mmap. intros. apply keeps_fit. Qed.
Lemma keeps_random_bits n p : keeps (random_bits n p) any.
Proof. apply keeps_seq; [apply keeps_rnd1|]. intros. apply keeps_ret; exact I. Qed.
Lemma keeps_init_call i n : keeps (init_call i n) any.
Proof. destruct i; cbn [init_call]; [apply keeps_new_sol|]. apply keeps_seq; [apply keeps_random_bits|]. intros. apply keeps_new_sol. Qed.
Lemma keeps_pad_zero n r : keeps (pad_zero n r) any.
Proof. apply keeps_seq; [apply keeps_genome|]. intros b. destruct (Nat.ltb _ _); [apply keeps_raise|apply keeps_set_genome]. Qed.
Lemma keeps_init_pad i n r : keeps (init_pad i n r) any.
Proof.
  destruct i; cbn [init_pad].
  - apply keeps_seq; [apply keeps_pad_zero|]. intros. apply keeps_ret; exact I.
  - apply keeps_seq; [apply keeps_genome|]. intros b. destruct (Nat.ltb _ _); [apply keeps_raise|].
    apply keeps_seq; [apply keeps_random_bits|]. intros. apply keeps_seq; [apply keeps_set_genome|]. intros. apply keeps_ret; exact I.
Qed.
Lemma keeps_keyed rs : keeps (keyed rs) any.
Proof.
  eapply keeps_any. apply (keeps_mmap _ any). intros r. apply keeps_seq; [apply keeps_fitness|]. intros. apply keeps_ret; exact I.
Qed.
Lemma keeps_fittest rs : keeps (fittest rs) any.
Proof.
  apply keeps_seq; [apply keeps_keyed|]. intros ks. apply keeps_seq; [apply keeps_lift; intros; exact I|]. intros. apply keeps_ret; exact I.
Qed.
Lemma keeps_by_fitness rs : keeps (by_fitness_desc rs) any.
Proof. apply keeps_seq; [apply keeps_keyed|]. intros ks. apply keeps_ret; exact I. Qed.
Lemma keeps_fitnesses rs : keeps (fitnesses rs) any.
Proof. eapply keeps_any. apply keeps_mmap. intros. apply keeps_fitness. Qed.
Lemma keeps_select k pop n : keeps (select k pop n) any.
Proof.
  destruct k; cbn [select].
  - apply keeps_rnd.
  - apply keeps_seq; [apply keeps_fitnesses|]. intros fs. destruct (roulette_weights fs); apply keeps_rnd.
  - apply keeps_seq; [apply keeps_fitnesses|]. intros fs. apply keeps_rnd.
  - eapply keeps_any. apply (keeps_mmap _ any). intros _. apply keeps_seq; [apply keeps_rnd|]. intros. apply keeps_fittest.
Qed.
Lemma keeps_single_point a b i : keeps (single_point a b i) any.
Proof. apply keeps_seq; [apply keeps_genome|]. intros ga. apply keeps_seq; [apply keeps_genome|]. intros gb. apply keeps_clone_with. Qed.
Lemma keeps_npoint both cuts a b : keeps (npoint both cuts a b) any.
Proof.
  revert a b. induction cuts as [|i cuts IH]; intros a b; cbn [npoint]; [apply keeps_ret; exact I|].
  apply keeps_seq; [apply keeps_single_point|]. intros a'. apply keeps_seq; [|intros; apply IH].
  destruct both; [apply keeps_single_point|apply keeps_ret; exact I].
Qed.
Lemma keeps_crossover both x rate a b : keeps (crossover both x rate a b) any.
Proof.
  apply keeps_seq; [apply keeps_rnd1|]. intros u. destruct (nlt _ _); [|apply keeps_ret; exact I].
  destruct x; cbn [recombine]; (apply keeps_seq; [apply keeps_genome|]); intros ga.
  - apply keeps_seq; [apply keeps_rnd|]. intros cuts. apply keeps_npoint.
  - apply keeps_seq; [apply keeps_rnd1|]. intros us. apply keeps_seq; [apply keeps_genome|]. intros gb.
    destruct (Nat.eqb _ _); [apply keeps_clone_with|apply keeps_raise].
Qed.
Lemma keeps_bit_flips rate r : keeps (bit_flips rate r) any.
Proof. apply keeps_seq; [apply keeps_genome|]. intros ga. apply keeps_seq; [apply keeps_rnd1|]. intros us. apply keeps_clone_with. Qed.
Lemma keeps_offspring cross ps : (forall a b, keeps (cross a b) any) -> keeps (offspring cross ps) any.
Proof.
  intros H. apply keeps_seq; [|intros; apply keeps_ret; exact I]. eapply keeps_any. apply (keeps_mmap _ any). intros [a b]. cbn [fst snd].
  apply keeps_seq; [apply H|]. intros c. apply keeps_seq; [apply H|]. intros d. apply keeps_ret; exact I.
Qed.

(* whole composition runs: a property Q of the optimizer's own attributes *)
Section Run.
Variable O : optimizer K.
Variable Q : ostate O -> Prop.
Hypothesis HO : forall L (E : env L) ini pop i, Q i -> keeps (orun O L E ini pop i) (fun z => Q (snd z)).
Lemma keeps_archive arch pop : keeps (archive_call arch pop) any.
Proof.
  apply keeps_seq; [apply keeps_fittest|]. intros best. destruct arch as [|a rest].
  - apply keeps_seq; [apply keeps_clone|]. intros. apply keeps_ret; exact I.
  - apply keeps_seq; [apply keeps_fitness|]. intros fa. apply keeps_seq; [apply keeps_fitness|]. intros fb.
    destruct (nlt fa fb); [|apply keeps_ret; exact I]. apply keeps_seq; [apply keeps_clone|]. intros. apply keeps_ret; exact I.
Qed.
Lemma keeps_optimize {L} c (E : env L) g (st : comp O) : Q (cint st) -> keeps (optimize O c E g st) (fun st' => Q (cint st')).
Proof.
  intros HQ. unfold optimize. apply keeps_seq; [apply keeps_set_rng|]. intros _. cbv zeta.
  apply keeps_seq.
  { unfold init_population. destruct (_ || _); [apply keeps_times, keeps_init_call|].
    eapply keeps_any. apply keeps_mmap. intros. apply keeps_init_pad. }
  intros pop. apply keeps_seq.
  { destruct (carchive c); [|apply keeps_ret; exact I]. apply keeps_seq; [apply keeps_miter; intros; apply keeps_pad_zero|].
    intros _. apply keeps_seq; [apply keeps_fit_all|]. intros; apply keeps_ret; exact I. }
  intros _. eapply keeps_bind with (Q := fun z => Q (snd z)).
  { destruct (epool E); [|apply HO; auto]. apply keeps_seq; [apply keeps_init_call|]. intros r.
    apply keeps_seq; [apply keeps_fit|]. intros. apply keeps_ret; auto. }
  intros [pop' i'] Hi. cbn [snd] in Hi. apply keeps_seq; [|intros; apply keeps_ret; auto].
  destruct (carchive c); [|apply keeps_ret; exact I]. apply keeps_seq; [apply keeps_archive|]. intros. apply keeps_fit_all.
Qed.
Lemma keeps_compose {L} c (steps : list (env L * rng)) (st : comp O) : Q (cint st) -> keeps (compose O c steps st) (fun st' => Q (cint st')).
Proof.
  revert st. induction steps as [|[E g] steps IH]; intros st HQ; cbn [compose]; [apply keeps_ret; auto|].
  eapply keeps_bind; [apply keeps_optimize; auto|]. intros st' H. auto.
Qed.
End Run.
End Keeps.
