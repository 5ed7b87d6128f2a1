(* Parallel runs do not depend on the schedule (C41). *)
From Coq Require Import Lia.
From Verif Require Import PyNum PyList PyMon PyRng L_List M_Matching M_Rule M_RuleGen M_Mixing M_GenomeOps M_Discovery M_Parallel S_Parallel.

Section Any.
Context {mem : Type} (I : mem -> Prop).
(* whatever the others do to the memory, as long as they keep it in I *)
Inductive steady {A} : proc mem A -> res A -> Prop :=
| Steady_end r : steady (Ended r) r
| Steady_next f k r : (forall s, I s -> I (f s)) -> (forall s, I s -> steady (k (f s)) r) -> steady (Next f k) r.
Definition alone {A} (p : proc mem A) (r : res A) : Prop := forall s, I s -> fst (exec p s) = r /\ I (snd (exec p s)).
Lemma steady_alone {A} (p : proc mem A) r : steady p r -> alone p r.
Proof. intros H. induction H as [r|f k r HI H IH]; intros s Hs; [split; auto|]. cbn [exec]. exact (IH s Hs (f s) (HI s Hs)). Qed.
Lemma steady_bind {A B} (p : proc mem A) (k : A -> proc mem B) r : steady p r -> forall r', match r with Ok a => steady (k a) r' | Raise e => r' = Raise e end -> steady (pbind p k) r'.
Proof.
  intros H. induction H as [r|f k0 r HI H IH]; intros r' HR; cbn [pbind]; [destruct r; [exact HR|subst; constructor]|]. constructor; [exact HI|]. intros s Hs. exact (IH s Hs r' HR).
Qed.
Lemma exec_bind {A B} (p : proc mem A) (k : A -> proc mem B) : forall s, exec (pbind p k) s = match exec p s with (Ok a, s') => exec (k a) s' | (Raise e, s') => (Raise e, s') end.
Proof. induction p as [[a|e]|f k0 IH]; intros s; cbn [pbind exec]; auto. Qed.
Lemma alone_bind {A B} (p : proc mem A) (k : A -> proc mem B) r : alone p r -> forall r', match r with Ok a => alone (k a) r' | Raise e => r' = Raise e end -> alone (pbind p k) r'.
Proof.
  intros H r' HR s Hs. rewrite exec_bind. destruct (H s Hs) as [H1 H2]. destruct (exec p s) as [x s']. cbn in H1, H2. subst x. destruct r as [a|e]; [exact (HR s' H2)|]. subst r'. split; auto.
Qed.
Lemma alone_end {A} (r : res A) : alone (Ended r) r. Proof. intros s Hs. split; auto. Qed.
Lemma collect_cons {A} (r : res A) rs : collect (r :: rs) = let? a := r in let? l := collect rs in Ok (a :: l).
Proof. reflexivity. Qed.
Lemma batch_alone {A} (ps : list (proc mem A)) rs : Forall2 alone ps rs -> alone (batch ps) (collect rs).
Proof.
  induction 1 as [|p r ps rs H HF IH]; cbn [batch]; [apply alone_end|]. rewrite collect_cons. apply (alone_bind p _ r H). destruct r as [a|e]; [|reflexivity]. cbn [rbind].
  apply (alone_bind _ _ _ IH). destruct (collect rs); [apply alone_end|reflexivity].
Qed.
(* threads *)
Lemma threads_steady {A} schedule : forall (ps : list (proc mem A)) rs s, I s -> Forall2 steady ps rs -> Forall2 steady (fst (threads schedule ps s)) rs /\ I (snd (threads schedule ps s)).
Proof.
  induction schedule as [|i schedule IH]; intros ps rs s Hs HF; cbn [threads]; [auto|]. destruct (nth_error ps i) as [p|] eqn:E; [|apply IH; auto].
  assert (HP : exists r, nth_error rs i = Some r /\ steady p r).
  { clear - HF E. revert i E. induction HF as [|p' r' ps rs H HF IH]; intros [|i] E; try discriminate; [injection E as <-; exists r'; auto|]. apply IH. exact E. }
  destruct HP as (r & ER & HP). assert (HQ : steady (fst (pstep p s)) r /\ I (snd (pstep p s))). { destruct HP as [r|f k r HI H]; cbn [pstep fst snd]; [split; [constructor|exact Hs]|]. auto. }
  destruct (pstep p s) as [p' s']. cbn [fst snd] in HQ. apply IH; [apply HQ|]. clear - HF ER HQ. revert i ER. induction HF as [|p0 r0 ps rs H HF IH]; intros [|i] ER; try discriminate; cbn [update nth_error] in *; [injection ER as ->; constructor; [apply HQ|exact HF]|]. constructor; [exact H|apply IH; exact ER].
Qed.
Lemma steady_ended {A} (ps : list (proc mem A)) rs : Forall2 steady ps rs -> forall rs', results ps = Some rs' -> rs' = rs.
Proof.
  induction 1 as [|p r ps rs H HF IH]; intros rs' E; cbn [results] in E; [injection E as <-; reflexivity|]. destruct H as [r|f k r HI H]; [|discriminate]. destruct (results ps) as [l|]; [|discriminate]. injection E as <-. f_equal. apply IH. reflexivity.
Qed.
Lemma in_threads_steady {A} schedule (ps : list (proc mem A)) rs s r : I s -> Forall2 steady ps rs -> in_threads schedule s ps = Some r -> r = collect rs.
Proof.
  intros Hs HF E. unfold in_threads in E. destruct (threads_steady schedule ps rs s Hs HF) as [H _]. destruct (results (fst (threads schedule ps s))) as [l|] eqn:EL; [|discriminate]. injection E as <-. f_equal. exact (steady_ended _ _ H _ EL).
Qed.
(* processes *)
Definition going {A} (ps : proc mem A * mem) (r : res A) : Prop := fst (exec (fst ps) (snd ps)) = r.
Lemma going_step {A} (p : proc mem A) s : fst (exec (fst (pstep p s)) (snd (pstep p s))) = fst (exec p s).
Proof. destruct p; reflexivity. Qed.
Lemma processes_going {A} schedule : forall (ps : list (proc mem A * mem)) rs, Forall2 going ps rs -> Forall2 going (processes schedule ps) rs.
Proof.
  induction schedule as [|i schedule IH]; intros ps rs HF; cbn [processes]; [exact HF|]. destruct (nth_error ps i) as [[p s]|] eqn:E; [|apply IH; exact HF]. apply IH.
  revert i E. induction HF as [|x r ps rs H HF IHF]; intros [|i] E; try discriminate; cbn [update nth_error] in *; [injection E as ->; constructor; [|exact HF]|constructor; [exact H|apply IHF; exact E]].
  unfold going in *. rewrite going_step. exact H.
Qed.
Lemma going_ended {A} (ps : list (proc mem A * mem)) rs : Forall2 going ps rs -> forall rs', results (map fst ps) = Some rs' -> rs' = rs.
Proof.
  induction 1 as [|[p s] r ps rs H HF IH]; intros rs' E; cbn [map results fst] in E; [injection E as <-; reflexivity|]. destruct p as [x|]; [|discriminate]. destruct (results (map fst ps)) as [l|]; [|discriminate]. injection E as <-. unfold going in H. cbn in H. subst x. f_equal. apply IH. reflexivity.
Qed.
Lemma chop_Forall2 {A B} (P : A -> B -> Prop) sizes : forall l l', Forall2 P l l' -> Forall2 (Forall2 P) (chop sizes l) (chop sizes l').
Proof.
  induction sizes as [|k sizes IH]; intros l l' H; cbn [chop]; [constructor; [exact H|constructor]|]. constructor.
  - clear - H. revert k. induction H as [|x y l l' H HF IH]; intros [|k]; cbn; constructor; auto.
  - apply IH. clear - H. revert k. induction H as [|x y l l' H HF IH]; intros [|k]; cbn; try constructor; auto.
Qed.
Lemma collect_app {A} (a b : list (res A)) : collect (a ++ b) = let? x := collect a in let? y := collect b in Ok (x ++ y).
Proof.
  induction a as [|r a IH]; [cbn [app]; change (collect []) with (@Ok (list A) []); cbn [rbind app]; destruct (collect b); reflexivity|]. cbn [app]. rewrite !collect_cons. destruct r as [x|e]; [|reflexivity]. cbn [rbind]. rewrite IH. destruct (collect a) as [la|]; [|reflexivity]. cbn [rbind]. destruct (collect b); reflexivity.
Qed.
Lemma collect_chop {A} sizes : forall rs : list (res A), (let? ls := collect (map collect (chop sizes rs)) in Ok (concat ls)) = collect rs.
Proof.
  induction sizes as [|k sizes IH]; intros rs; cbn [chop map].
  - rewrite collect_cons. destruct (collect rs) as [l|]; cbn; [rewrite app_nil_r; reflexivity|reflexivity].
  - rewrite collect_cons. assert (EC : collect rs = collect (firstn k rs ++ skipn k rs)) by (rewrite firstn_skipn; reflexivity). rewrite EC, collect_app, <- (IH (skipn k rs)). clear EC. destruct (collect (firstn k rs)) as [l|]; [|reflexivity]. cbn [rbind]. destruct (collect (map collect (chop sizes (skipn k rs)))); reflexivity.
Qed.
Lemma in_processes_alone {A} sizes schedule (ps : list (proc mem A)) rs s r : I s -> Forall2 alone ps rs -> in_processes sizes schedule s ps = Some r -> r = collect rs.
Proof.
  intros Hs HF E. unfold in_processes in E.
  assert (HG : Forall2 going (processes schedule (map (fun b => (batch b, s)) (chop sizes ps))) (map collect (chop sizes rs))).
  { apply processes_going. pose proof (chop_Forall2 alone sizes ps rs HF) as HC. clear - Hs HC. induction HC as [|b rb bs rbs H HC IHC]; [constructor|]. cbn [map]. constructor; [|exact IHC]. unfold going. cbn [fst snd]. apply (batch_alone b rb H s Hs). }
  destruct (results (map fst _)) as [l|] eqn:EL; [|discriminate]. injection E as <-. rewrite (going_ended _ _ HG _ EL). apply collect_chop.
Qed.
End Any.
(* every run can be brought to its end *)
Lemma iter_in {T} (f : T -> T) n : forall x, Nat.iter (S n) f x = Nat.iter n f (f x).
Proof. induction n as [|n IH]; intros x; [reflexivity|]. change (f (Nat.iter (S n) f x) = f (Nat.iter n f (f x))). rewrite IH. reflexivity. Qed.
Lemma exec_steps {mem A} (p : proc mem A) : forall s, exists k r, Nat.iter k (fun ps => pstep (fst ps) (snd ps)) (p, s) = (Ended r, snd (exec p s)).
Proof.
  induction p as [r|f k IH]; intros s; [exists 0%nat, r; reflexivity|]. destruct (IH (f s) (f s)) as (n & r & H). exists (S n), r. rewrite iter_in. exact H.
Qed.
Lemma threads_app {mem A} a : forall b (ps : list (proc mem A)) s, threads (a ++ b) ps s = threads b (fst (threads a ps s)) (snd (threads a ps s)).
Proof. induction a as [|i a IH]; intros b ps s; cbn [app threads fst snd]; [reflexivity|]. destruct (nth_error ps i) as [p|]; [destruct (pstep p s)|]; apply IH. Qed.
Lemma processes_app {mem A} a : forall b (ps : list (proc mem A * mem)), processes (a ++ b) ps = processes b (processes a ps).
Proof. induction a as [|i a IH]; intros b ps; cbn [app processes]; [reflexivity|]. destruct (nth_error ps i) as [[p s]|]; apply IH. Qed.
Definition is_over {mem A} (p : proc mem A) : Prop := exists r, p = Ended r.
Lemma results_over {mem A} (ps : list (proc mem A)) : Forall is_over ps -> exists rs, results ps = Some rs.
Proof. induction 1 as [|p ps (r & ->) HF (rs & IH)]; [exists []; reflexivity|]. exists (r :: rs). cbn [results]. rewrite IH. reflexivity. Qed.
Lemma update_app_at {A} (a : list A) x b y : update (a ++ x :: b) (length a) y = a ++ y :: b.
Proof. induction a as [|z a IH]; [reflexivity|]. cbn. f_equal. exact IH. Qed.
Lemma nth_app_at {A} (a : list A) x b : nth_error (a ++ x :: b) (length a) = Some x.
Proof. induction a; auto. Qed.
Lemma threads_one {mem A} (a : list (proc mem A)) p b n : forall s, threads (repeat (length a) n) (a ++ p :: b) s =
  let ps := Nat.iter n (fun ps => pstep (fst ps) (snd ps)) (p, s) in (a ++ fst ps :: b, snd ps).
Proof.
  cbv zeta. revert p. induction n as [|n IH]; intros p s; [reflexivity|]. cbn [repeat threads]. rewrite nth_app_at. destruct (pstep p s) as [p' s'] eqn:E. rewrite update_app_at, IH.
  rewrite iter_in. cbn [fst snd]. rewrite E. reflexivity.
Qed.
Lemma threads_end {mem A} (b : list (proc mem A)) : forall a s, Forall is_over a -> exists schedule, Forall is_over (fst (threads schedule (a ++ b) s)).
Proof.
  induction b as [|p b IH]; intros a s HA; [exists []; cbn; rewrite app_nil_r; exact HA|]. destruct (exec_steps p s) as (n & r & H).
  destruct (IH (a ++ [Ended r]) (snd (exec p s))) as (schedule & HS); [apply Forall_app; split; [exact HA|]; constructor; [exists r; reflexivity|constructor]|].
  exists (repeat (length a) n ++ schedule). rewrite threads_app, threads_one. cbv zeta. rewrite H. cbn [fst snd]. rewrite <- app_assoc in HS. exact HS.
Qed.
Lemma threads_finish {mem A} schedule s (ps : list (proc mem A)) : exists rest r, in_threads (schedule ++ rest) s ps = Some r.
Proof.
  destruct (threads_end (fst (threads schedule ps s)) [] (snd (threads schedule ps s)) (Forall_nil _)) as (rest & H). exists rest. unfold in_threads. rewrite threads_app. destruct (results_over _ H) as (rs & E). cbn [app] in E. rewrite E. eexists. reflexivity.
Qed.
Lemma processes_one {mem A} (a : list (proc mem A * mem)) x b n : processes (repeat (length a) n) (a ++ x :: b) = a ++ Nat.iter n (fun ps => pstep (fst ps) (snd ps)) x :: b.
Proof.
  revert x. induction n as [|n IH]; intros x; [reflexivity|]. cbn [repeat processes]. rewrite nth_app_at. destruct x as [p s]. rewrite update_app_at, IH, iter_in. reflexivity.
Qed.
Lemma processes_end {mem A} (b : list (proc mem A * mem)) : forall a, Forall (fun x => is_over (fst x)) a -> exists schedule, Forall (fun x => is_over (fst x)) (processes schedule (a ++ b)).
Proof.
  induction b as [|[p s] b IH]; intros a HA; [exists []; cbn; rewrite app_nil_r; exact HA|]. destruct (exec_steps p s) as (n & r & H).
  destruct (IH (a ++ [(Ended r, snd (exec p s))])) as (schedule & HS); [apply Forall_app; split; [exact HA|]; constructor; [exists r; reflexivity|constructor]|].
  exists (repeat (length a) n ++ schedule). rewrite processes_app, processes_one, H. rewrite <- app_assoc in HS. exact HS.
Qed.
Lemma processes_finish {mem A} sizes schedule s (ps : list (proc mem A)) : exists rest r, in_processes sizes (schedule ++ rest) s ps = Some r.
Proof.
  destruct (processes_end (processes schedule (map (fun b => (batch b, s)) (chop sizes ps))) [] (Forall_nil _)) as (rest & H). exists rest. unfold in_processes. rewrite processes_app.
  assert (HM : Forall is_over (map fst (processes rest (processes schedule (map (fun b => (batch b, s)) (chop sizes ps)))))). { cbn [app] in H. clear - H. induction H; constructor; auto. }
  destruct (results_over _ HM) as (rs & E). rewrite E. eexists. reflexivity.
Qed.

(* ----- the evolution strategy ----- *)
Section Es.
Variable L : learner.
Variable good : forall A : Type, proc sigma A -> res A -> Prop.
Arguments good {A}.
Hypothesis good_end : forall A (r : res A), good (Ended r) r.
Hypothesis good_bind : forall A B (p : proc sigma A) (k : A -> proc sigma B) r, good p r -> forall r', match r with Ok a => good (k a) r' | Raise e => r' = Raise e end -> good (pbind p k) r'.
Definition out {A} (x : res A * rng) : res (A * rng) := match x with (Ok a, g) => Ok (a, g) | (Raise e, _) => Raise e end.
Definition sim {A} (m : prun A) (m' : St rng A) : Prop := forall g, good (m g) (out (m' g)).
Variables (c : escfg) (D : denv L).
Hypothesis good_mut : forall m, sim (mutate_rule_p (es_mut c) m) (mutate_rule (es_mut c) m).
Lemma sim_pst {A} (m : St rng A) : sim (pst m) m.
Proof. intros g. unfold pst, out. destruct (m g) as [[a|e] g']; apply good_end. Qed.
Lemma sim_ret {A} (a : A) : sim (pret a) (ret a). Proof. intros g. apply good_end. Qed.
Lemma sim_lift {A} (r : res A) : sim (plift r) (lift r). Proof. intros g. unfold plift, lift, out. destruct r; apply good_end. Qed.
Lemma sim_bind {A B} (m : prun A) m' (k : A -> prun B) k' : sim m m' -> (forall a, sim (k a) (k' a)) -> sim (pthen m k) (bind m' k').
Proof. intros H1 H2 g. unfold pthen. apply (good_bind _ _ _ _ _ (H1 g)). unfold bind, out at 1. destruct (m' g) as [[a|e] g']; [apply H2|reflexivity]. Qed.
Lemma sim_repeat {A} n (m : prun A) m' : sim m m' -> sim (repeat_p n m) (repeat_m n m').
Proof. intros H. induction n as [|n IH]; cbn [repeat_p repeat_m]; [apply sim_ret|]. apply sim_bind; [exact H|]. intros x. apply sim_bind; [exact IH|]. intros xs. apply sim_ret. Qed.
Lemma sim_loop n : forall e w, sim (es_loop_p c D n e w) (es_loop c D n e w).
Proof.
  induction n as [|n IH]; intros e w; cbn [es_loop_p es_loop]; [apply sim_ret|]. cbv zeta. apply sim_bind.
  - apply sim_repeat. unfold mutant_p, mutant. apply sim_bind; [apply good_mut|]. intros m. apply sim_lift.
  - intros children. destruct (filter is_valid children) as [|v vs]; [apply IH|]. apply sim_bind.
    + destruct (es_operator c); try apply sim_pst. apply sim_ret.
    + intros e'. destruct (es_operator c); try apply IH. destruct (settled _ _); [apply sim_lift|apply IH].
Qed.
Lemma good_run t : good (es_run c D t) (es_task c D t).
Proof.
  unfold es_run, es_task. apply (good_bind _ _ _ _ _ (sim_loop _ _ _ _)). unfold out. destruct (es_loop c D (es_iter c) (fst t) [] (snd t)) as [[a|e] g']; cbn [fst]; [apply good_end|reflexivity].
Qed.
End Es.
Lemma mutate_steady mu m : sim (fun A => steady (A := A) (as_configured (Mut mu))) (mutate_rule_p (Mut mu) m) (mutate_rule (Mut mu) m).
Proof.
  intros g. cbn [mutate_rule_p mutate_rule]. unfold mutate_p. constructor; [auto|]. intros s Hs. cbn in Hs. rewrite Hs. unfold pst, out. destruct (mutate mu m g) as [[a|e] g']; constructor.
Qed.
Lemma mutate_alone mu m : sim (fun A => alone (A := A) (as_configured mu)) (mutate_rule_p mu m) (mutate_rule mu m).
Proof.
  destruct mu as [mu|mu low high]; intros g; [apply steady_alone, mutate_steady|]. intros s Hs. cbn [mutate_rule_p mutate_rule]. unfold sigma_range. destruct (draw g) as [q g1]. cbn [exec mutate_p]. unfold pst, out.
  destruct (mutate _ m g1) as [[a|e] g']; cbn [exec fst snd]; auto.
Qed.
Lemma run_steady L (c : escfg) (D : denv L) mu t : es_mut c = Mut mu -> steady (as_configured (es_mut c)) (es_run c D t) (es_task c D t).
Proof.
  intros E. apply (good_run L (fun A => steady (A := A) (as_configured (es_mut c)))); [intros; constructor|intros; eapply steady_bind; eauto|]. intros m. rewrite E. apply mutate_steady.
Qed.
Lemma run_alone L (c : escfg) (D : denv L) t : alone (as_configured (es_mut c)) (es_run c D t) (es_task c D t).
Proof.
  apply (good_run L (fun A => alone (A := A) (as_configured (es_mut c)))); [intros; apply alone_end|intros; eapply alone_bind; eauto|]. intros m. apply mutate_alone.
Qed.
Lemma collect_map {A B} (f : A -> res B) l : collect (map f l) = rmap f l.
Proof. induction l as [|x l IH]; [reflexivity|]. cbn [map]. rewrite collect_cons, IH. reflexivity. Qed.
Lemma Forall2_map2 {A B C} (P : B -> C -> Prop) (f : A -> B) (g : A -> C) l : (forall x, P (f x) (g x)) -> Forall2 P (map f l) (map g l).
Proof. intros H. induction l; constructor; auto. Qed.
Lemma jobs_agree L (c : escfg) (D : denv L) s way tasks r : as_configured (es_mut c) s -> jobs s way -> way (map (es_run c D) tasks) = Some r -> r = rmap (es_task c D) tasks.
Proof.
  intros Hs HW E. rewrite <- collect_map. assert (HF : Forall2 (alone (as_configured (es_mut c))) (map (es_run c D) tasks) (map (es_task c D) tasks)) by (apply Forall2_map2; intros t; apply run_alone).
  destruct HW as [|sizes schedule]; [|exact (in_processes_alone _ sizes schedule _ _ s r Hs HF E)]. unfold in_sequence in E. injection E as <-. apply (batch_alone _ _ _ HF s Hs).
Qed.
Lemma threads_agree L (c : escfg) (D : denv L) mu s schedule tasks r : es_mut c = Mut mu -> with_sigma mu s = mu -> in_threads schedule s (map (es_run c D) tasks) = Some r -> r = rmap (es_task c D) tasks.
Proof.
  intros EM Hs E. rewrite <- collect_map. eapply (in_threads_steady (as_configured (es_mut c))); [|apply Forall2_map2; intros t; apply (run_steady L c D mu t EM)|exact E]. rewrite EM. exact Hs.
Qed.
Lemma optimize_agrees L (c : escfg) (D : denv L) n kids g way x :
  (forall tasks r, way (map (es_run c D) tasks) = Some r -> r = rmap (es_task c D) tasks) -> es_optimize_by way c D n kids g = Some x -> x = es_optimize c D n kids g.
Proof.
  intros HW E. unfold es_optimize_by in E. unfold es_optimize, bind at 1. unfold bind at 1 in E. destruct (origins (d_origin (es_d c)) D n g) as [[xs|e] g1]; [|injection E as <-; reflexivity].
  unfold bind at 1. destruct (mmap (new_rule (es_d c) D) xs g1) as [[initial|e] g2]; [|injection E as <-; reflexivity].
  destruct (way _) as [r|] eqn:EW; [|discriminate]. injection E as <-. apply HW in EW. subst r. unfold bind, lift. destruct (rmap (es_task c D) _) as [rs|e]; reflexivity.
Qed.
