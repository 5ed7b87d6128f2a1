(* C30: the greedy update of the bee colony. *)
From Verif Require Import PyNum PyList PyMon PyRng M_Matching M_Rule L_RuleProps M_Mixing M_Solution S_Solution L_HeapProps M_Composition S_Composition M_GenomeOps
  L_GenomeProps L_SagaProps M_Abc S_Abc L_AbcProps.

(* the update itself: a source gives way to a strictly fitter neighbour only, otherwise its counter grows by one *)
Theorem C30_greedy : forall news fs (s : hst plain) fs' s', wf s -> greedy_update news fs s = (Ok fs', s') ->
  s' = s /\ length fs' = length fs /\
  forall i f, nth_error fs i = Some f -> exists f', nth_error fs' i = Some f' /\
    match nth_error news i with Some r => greedy s r f f' | None => f' = f end.
Proof. exact built_greedy. Qed.
Print Assumptions C30_greedy.
(* a whole phase, employed or onlooker: the neighbour is a new solution, bred from the source and its partner, and measured *)
Theorem C30_phase : forall {L} (E : env L) M c fs others (s : hst plain) fs' s', wf s ->
  Forall (honest E s) (map src fs) -> Forall (honest E s) others -> bee_phase M c E fs others s = (Ok fs', s') ->
  untouched s s' /\ Forall (honest E s') (map src fs') /\ length fs' = length fs /\
  forall i f, nth_error fs i = Some f -> exists f', nth_error fs' i = Some f' /\
    match nth_error others i with
    | None => f' = f
    | Some o => exists r, bred (be_food c) s s' (src f) o r /\ honest E s' r /\ greedy s' r f f'
    end.
Proof. exact @built_phase. Qed.
Print Assumptions C30_phase.
(* scouts replace exactly the sources whose counter has reached the limit *)
Theorem C30_scouts : forall {L} (E : env L) c ini fs (s : hst plain) fs' s', wf s ->
  Forall (honest E s) (map src fs) -> mmap (scout c E ini) fs s = (Ok fs', s') ->
  untouched s s' /\ Forall (honest E s') (map src fs') /\ length fs' = length fs /\
  forall i f, nth_error fs i = Some f -> exists f', nth_error fs' i = Some f' /\
    ((trials f < be_limit c)%nat /\ f' = f \/ (be_limit c <= trials f)%nat /\ trials f' = 0%nat /\ ~ live s (src f')).
Proof. exact @built_scouts. Qed.
Print Assumptions C30_scouts.
(* an iteration: no source loses fitness unless a scout may have replaced it *)
Theorem C30_iteration : forall {L} (E : env L) M c ini fs (s : hst plain) fs' s', never_nan E -> wf s ->
  Forall (honest E s) (map src fs) -> bee_step M c E ini fs s = (Ok fs', s') ->
  untouched s s' /\ Forall (honest E s') (map src fs') /\ length fs' = length fs /\
  forall i f, nth_error fs i = Some f -> exists f', nth_error fs' i = Some f' /\
    (steady 2 s s' f f' \/ (be_limit c <= trials f + 2)%nat /\ trials f' = 0%nat /\ ~ live s (src f')).
Proof. exact @built_step. Qed.
Print Assumptions C30_iteration.
(* a run too short for any scout: every member ends at least as fit as it was measured at the start *)
Theorem C30_run_never_worse : forall {L} (E : env L) M c ini pop (s : hst plain) pop' s', never_nan E -> built s ->
  Forall (fun r => exists bits a, shows s r bits a /\ length bits = length (epool E)) pop ->
  (2 * be_iter c < be_limit c)%nat -> bee_run M c L E ini pop tt s = (Ok (pop', tt), s') ->
  exists s0, fit_all E pop s = (Ok pop, s0) /\
  forall i r, nth_error pop i = Some r -> exists r', nth_error pop' i = Some r' /\ not_worse s0 r s' r'.
Proof. exact @built_run. Qed.
Print Assumptions C30_run_never_worse.

(* two sources, two iterations, in which both get fitter *)
Example C30_satisfiable :
  let E := count_env by_count in
  let c := mkBee 2 2 5 (FBitwise) in
  let M := mkSmath (fun x => x) (fun x => x) in
  let s := run_ops (K := plain) (L := mean_learner) [HNew [true; false; false]; HNew [false; true; true]] (mkH [] [] (scripted [1; 0; 0; 1; 1; 1; 0; 0])) in
  never_nan E /\ built s /\ (2 * be_iter c < be_limit c)%nat /\
  Forall (fun r => exists bits a, shows s r bits a /\ length bits = length (epool E)) [0; 1]%nat /\
  exists pop' s', bee_run M c mean_learner E (RandomInit (1#2)) [0; 1]%nat tt s = (Ok (pop', tt), s') /\ ~ In 0%nat pop' /\ ~ In 1%nat pop'.
Proof.
  cbv zeta. split; [intros e k j; reflexivity|]. split; [eexists _, _, _; reflexivity|]. split; [repeat constructor|]. split.
  { repeat constructor; (eexists _, _; split; [eexists; vm_compute; split; [reflexivity|split; reflexivity]|reflexivity]). }
  match goal with |- exists pop' s', ?r = _ /\ _ =>
    destruct (ran_ok r (fun z _ => negb (mem 0 (fst z) || mem 1 (fst z)))) as ([pop' []] & s' & H1 & H2); [vm_compute; reflexivity|] end.
  exists pop', s'. split; [exact H1|]. cbn [fst] in H2.
  split; intros Hi; (assert (HM : forall i l, In i l -> mem i l = true) by (intros i l Hl; apply existsb_exists; exists i; split; [exact Hl|apply Nat.eqb_refl]);
    rewrite (HM _ _ Hi) in H2; rewrite ?orb_true_r in H2; discriminate).
Qed.
(* a phase from measured sources, with every kind of neighbour, and sources that do and do not improve *)
Example C30_phase_satisfiable : forall fd, In fd [FSigmoid; FBitwise; FDimensionFlips (1#2)] ->
  let E := count_env by_count in
  let c := mkBee 2 2 5 fd in
  let M := mkSmath (fun x => x) (fun x => x) in
  let s := run_ops (K := plain) (L := mean_learner) [HNew [true; false; false]; HNew [false; true; true]; HFit 0 E; HFit 1 E] (mkH [] [] (scripted [1#2; 1#3; 0; 1#3; 2#3; 1#5])) in
  wf s /\ Forall (honest E s) [0; 1]%nat /\ exists fs' s', bee_phase M c E [mkSrc 0 4; mkSrc 1 0] [1; 0]%nat s = (Ok fs', s').
Proof.
  intros fd Hfd. cbv zeta. split; [apply built_wf; eexists _, _, _; reflexivity|]. split.
  { repeat constructor; (eexists _, _, (scripted []), _; split;
      [eexists; vm_compute; split; [reflexivity|split; reflexivity]|split; [reflexivity|vm_compute; reflexivity]]). }
  destruct Hfd as [<-|[<-|[<-|[]]]]; (match goal with |- exists fs' s', ?r = _ =>
    destruct (ran_ok r (fun _ _ => true)) as (fs' & s' & H1 & _); [vm_compute; reflexivity|exists fs', s'; exact H1] end).
Qed.
