(* Statements about whole searches, and concrete ones. *)
From Coq Require Import Permutation Sorting.Sorted Lia.
From Verif Require Import PyNum PyList PyMon PyRng L_Num L_List L_Rng M_Matching S_Matching M_Rule S_Rule L_RuleProps M_RuleGen L_RuleGen M_Mixing M_GenomeOps L_GenomeProps M_Discovery S_Discovery L_Discovery L_DiscoveryProps L_DiscoveryEx L_SasProps L_SafeFit
  M_Novelty S_Novelty L_Novelty L_NoveltyNum L_NoveltyScore L_NoveltyProps L_NoveltyRun L_NoveltyEx S_Breed L_Breed L_Breed2 L_Breed3.
From Coq Require Import Lqa.

Section Whole.
Variable L : learner.
Variables (X : matrix) (y : targets) (d : nat).
Hypothesis HT : table d X y.
Hypothesis HX : X <> [].
Hypothesis HP : forall m e, exists q, rfitness L m e = Fin q.
Implicit Types st : nst L.
Lemma ready_any pool el mx st : ready d X y st <-> L_NoveltyRun.inv L (mkDenv X y pool el mx) d st.
Proof. split; intros [H1 H2]; (split; [|exact H2]); revert H1; apply Forall_impl; [intros c (A & B & C & E)|intros c ((A & B) & C & E)]; split; auto; split; auto. Qed.
Lemma one_generation (c : nscfg) pool el mx n pop best st out st' : let D := mkDenv X y pool el mx in
  space_dim d (d_constraint (ns_d c)) -> type_ok (ns_type c) -> ready d X y st -> Forall (live st) pop ->
  ns_loop c D (S n) pop best st = (Ok out, st') ->
  exists pop1 best1 st1, generation c X y pop best st pop1 best1 st1 /\ ready d X y st1 /\ Forall (live st1) pop1 /\ ns_loop c D n pop1 best1 st1 = (Ok out, st').
Proof.
  intros D HS Ht HR HL H. apply (ready_any pool el mx) in HR. apply (generation_step L D d HT HX HP) in H as (p1 & b1 & s1 & HG & I1 & L1 & _ & H); [|assumption..].
  exists p1, b1, s1. split; [exact HG|]. split; [apply (ready_any pool el mx); exact I1|]. split; assumption.
Qed.
Lemma whole_course (c : nscfg) pool el mx n pop st out st' : let D := mkDenv X y pool el mx in
  space_dim d (d_constraint (ns_d c)) -> type_ok (ns_type c) -> ready d X y st -> Forall (live st) pop ->
  ns_loop c D n pop [] st = (Ok out, st') ->
  same_rules st st' /\ (length (cells st) <= length (cells st') <= length (cells st) + n * ns_lambda c)%nat /\
  (exists new, arch st' = arch st ++ new /\
    (ns_use_pop c = false -> Forall (descends c X y (length (cells st)) st') new /\ (length new <= n * match ns_archive c with ANone => 0 | _ => ns_roh c end)%nat)) /\
  NoDup out /\ (length out <= ns_mu c)%nat /\ Forall (descends c X y (length (cells st)) st') out.
Proof.
  intros D HS Ht HR HL H. apply (ready_any pool el mx) in HR. apply (course L D d HT HX HP) in H as (A & B & C & E); [|assumption..].
  split; [exact A|]. split; [exact B|]. split; [exact C|]. apply E; [lia|constructor|cbn; lia|constructor].
Qed.
Lemma accepted_sub a yy : forall cs out, accepted L a yy cs = Ok out -> exists keep, length keep = length cs /\ out = compress cs keep.
Proof.
  induction cs as [|x cs IH]; intros out H; cbn [accepted] in H; [injection H as <-; exists []; split; reflexivity|].
  destruct (accept a (crule x) yy) as [ok|] eqn:E; [|discriminate]. cbn [rbind] in H. destruct (accepted L a yy cs) as [rest|] eqn:E2; [|discriminate]. cbn [rbind] in H. injection H as <-.
  destruct (IH rest eq_refl) as (keep & HK & ->). exists (ok :: keep). split; [cbn; congruence|destruct ok; reflexivity].
Qed.
Lemma compress_forall2 {A B} (R : A -> B -> Prop) l l' : Forall2 R l l' -> forall keep, Forall2 R (compress l keep) (compress l' keep).
Proof. induction 1 as [|a b l l' Hab H IH]; intros [|[|] keep]; cbn; try constructor; auto. Qed.
Lemma compress_incl {A} (l : list A) : forall keep, incl (compress l keep) l /\ (length (compress l keep) <= length l)%nat /\ (NoDup l -> NoDup (compress l keep)).
Proof.
  induction l as [|a l IH]; intros keep.
  - destruct keep; (split; [intros ? []|]; split; [cbn; lia|intros _; constructor]).
  - destruct keep as [|b keep]; [split; [intros ? []|]; split; [cbn; lia|intros _; constructor]|]. cbn. destruct (IH keep) as (A1 & A2 & A3). destruct b; cbn.
    + split; [intros x [<-|Hx]; [left; reflexivity|right; apply A1; exact Hx]|]. split; [lia|]. intros HN. inversion HN as [|? ? N1 N2]; subst. constructor; [intros HI; apply N1, A1, HI|auto].
    + split; [intros x Hx; right; apply A1; exact Hx|]. split; [lia|]. intros HN. inversion HN; auto.
Qed.
Lemma found (c : nscfg) (pool : list (cell L)) el mx n g out g' :
  space_dim d (d_constraint (ns_d c)) -> type_ok (ns_type c) -> Forall (searched d X y) pool ->
  ns_optimize c X y pool el mx n g = (Ok out, g') ->
  exists st ids new, ns_run c (mkDenv X y (map crule pool) el mx) n (mkNst pool (seq 0 (length pool)) g) = (Ok out, st) /\ arch st = seq 0 (length pool) ++ new /\
    (forall i x, nth_error pool i = Some x -> rule_at st i (crule x)) /\
    NoDup ids /\ (length ids <= Nat.min n (ns_mu c))%nat /\ Forall (descends c X y (length pool + ns_mu c) st) ids /\ Forall2 (fun i x => rule_at st i (crule x)) ids out.
Proof.
  intros HS Ht HPl H. unfold ns_optimize in H. set (D := mkDenv X y (map crule pool) el mx) in H. set (st0 := mkNst pool (seq 0 (length pool)) g) in H.
  destruct (ns_run c D n st0) as [r sf] eqn:ER. injection H as -> _.
  assert (I0 : L_NoveltyRun.inv L D d st0).
  { split; cbn [cells arch].
    + unfold okheap. cbn [cells]. revert HPl. apply Forall_impl. intros x (A & B & ds & E1 & E2 & E3). split; [split; [exact A|exact B]|]. split; [congruence|]. intros ds' Hd. assert (ds' = ds) by congruence. subst ds'. split; [exact E2|exact E3].
    + apply Forall_forall. intros i Hi. apply in_seq in Hi. destruct (nth_error pool i) as [x|] eqn:Ex; [|apply nth_error_None in Ex; lia].
      rewrite Forall_forall in HPl. destruct (HPl x (nth_error_In _ _ Ex)) as (_ & _ & ds & E1 & _). exists x, ds. cbn [cells]. auto. }
  pose proof ER as ER0. unfold ns_run in ER. apply bind_inv in ER as (pop & s1 & H1 & H).
  assert (HC1 : length (cells s1) = (length pool + ns_mu c)%nat /\ arch s1 = seq 0 (length pool)).
  { unfold init_population in H1. apply bind_inv in H1 as (xs & s2 & H2 & H1). apply on_rng_inv in H2 as (g2 & H2 & ->). destruct (origins_len L D d HT _ _ _ _ _ H2) as [Hlx _].
    apply alloc_seq in H1 as (_ & A1 & new & E & HF). split; [|exact A1]. rewrite E. cbn [cells]. rewrite app_length. rewrite <- (Forall2_len _ _ _ HF). rewrite Hlx. reflexivity. }
  destruct HC1 as [HC1 HA1].
  apply (init_population_ok L D d HT) in H1 as (I1 & E1 & L1); [|exact HS|exact I0]. apply bind_inv in H as (best & s2 & H2 & H).
  apply (course L D d HT HX HP) in H2 as (R2 & _ & (new & A2 & _) & HB); [|exact HS|exact Ht|exact I1|exact L1].
  destruct (HB (length (cells s1)) (le_n _) (NoDup_nil _)) as (N2 & Hl2 & D2); [cbn; lia|constructor|]. rewrite HC1 in D2.
  apply bind_inv in H as (os & s3 & H3 & H). unfold lift in H. injection H as H HE.
  assert (HF : s3 = s2 /\ Forall2 (fun i x => rule_at s2 i (crule x)) (firstn n best) os).
  { clear - H3. revert os s3 H3. induction (firstn n best) as [|i l IH]; intros os s3 H3; cbn [mmap] in H3; [injection H3 as <- <-; split; [reflexivity|constructor]|].
    apply bind_inv in H3 as (z & s4 & H4 & H3). apply bind_inv in H3 as (zs & s5 & H5 & H3). injection H3 as <- <-. apply bind_inv in H4 as (w & s6 & H6 & H4). injection H4 as <- <-.
    unfold cell_of in H6. destruct (nth_error (cells s2) i) as [cc|] eqn:E; [|discriminate]. injection H6 as <- <-. destruct (IH _ _ H5) as [-> HF]. split; [reflexivity|]. constructor; [exists cc; auto|exact HF]. }
  destruct HF as [-> HF]. subst sf.
  apply accepted_sub in H as (keep & HK & ->). destruct (compress_incl (firstn n best) keep) as (Q1 & Q2 & Q3).
  exists s2, (compress (firstn n best) keep), new. split; [exact ER0|]. split; [rewrite A2, HA1; reflexivity|]. split.
  - intros i x Hx. apply R2. apply (ext_rules L) in E1. apply E1. exists x. auto.
  - split; [apply Q3; rewrite <- (firstn_skipn n best) in N2; eapply nodup_left; exact N2|]. split; [rewrite firstn_length in Q2; lia|].
    split; [|apply compress_forall2; exact HF]. apply Forall_forall. intros i Hi. apply Q1, In_firstn in Hi. rewrite Forall_forall in D2. auto.
Qed.
Lemma no_iterations (c : nscfg) (pool : list (cell L)) el mx n g out g' : ns_iter c = 0%nat -> ns_optimize c X y pool el mx n g = (Ok out, g') -> out = [].
Proof.
  intros H0 H. unfold ns_optimize in H. destruct (ns_run _ _ _ _) as [r s] eqn:E. injection H as -> _. unfold ns_run in E. apply bind_inv in E as (pop & s1 & _ & E). rewrite H0 in E. cbn [ns_loop] in E.
  apply bind_inv in E as (b & s2 & E1 & E). injection E1 as <- <-. rewrite firstn_nil in E. apply bind_inv in E as (os & s3 & E1 & E). injection E1 as <- <-. injection E as <- _. reflexivity.
Qed.
End Whole.

(* ----- concrete searches ----- *)
Definition odd_conf : nscfg := mkNs (d_conf UniformSamples) 1 2 3 1 1 false (1#2) (Mut (MutNormal (Scalar 1))) RRandom NBasic TBasic ANovel 0.
Definition small_env : denv mean_learner := mkDenv dx dyy [] None (mkMixing KeepAll ExpAsIs 1).
Lemma fewer_children : exists (c : nscfg) (D : denv mean_learner) pop (st : nst mean_learner) out st',
  ns_new c = Ok c /\ ready 1 (dX D) (dy D) st /\ Forall (live st) pop /\ ns_loop c D 1 pop [] st = (Ok out, st') /\ out <> [] /\ (length (cells st') < length (cells st) + ns_lambda c)%nat.
Proof.
  exists odd_conf, small_env, [1; 2; 3]%nat, nst1. do 2 eexists. split; [reflexivity|]. split; [exact nst1_ready|]. split; [exact nst1_live|]. split; [vm_compute; reflexivity|]. split; [discriminate|cbn; lia].
Qed.
Lemma attributes_stay : exists (c : nscfg) (pool : list (cell mean_learner)) n g x out g', ns_new c = Ok c /\
  ns_optimize c dx dyy pool None (mkMixing KeepAll ExpAsIs 1) n g = (Ok (x :: out), g') /\ cdist x <> None /\ cidx x <> None.
Proof.
  exists (ns_conf 2 NBasic TBasic ANovel), [old_cell (on_data dx dyy 0 1)], 2%nat, (scripted [2; 2]). do 3 eexists. split; [reflexivity|]. split; [vm_compute; reflexivity|]. split; discriminate.
Qed.
Lemma not_mean : ~ mean_of_smallest 2 [2 # 3; 1 # 3; 0] 0.
Proof.
  intros (near & far & HPm & Hl & _ & Hs & _).
  pose proof (Permutation_length HPm) as HL. rewrite app_length, Hl in HL. destruct far as [|x [|]]; cbn in HL; try discriminate. destruct near as [|a [|b [|]]]; try discriminate. cbn in Hs.
  assert (HS : forall l l' : list Q, Permutation l l' -> qsum l == qsum l') by (clear; induction 1 as [|x l l' _ IH|x y l|l l' l'' _ IH1 _ IH2]; [reflexivity|unfold qsum in *; cbn; rewrite IH; reflexivity|unfold qsum; cbn; ring|rewrite IH1; exact IH2]).
  pose proof (HS _ _ HPm) as HS'. cbn in HS'. assert (Hin : In x [2 # 3; 1 # 3; 0]) by (apply (Permutation_in _ (Permutation_sym HPm)); right; right; left; reflexivity).
  change (inject_Z (Z.of_nat 2)) with 2 in Hs. destruct Hin as [<-|[<-|[<-|[]]]]; lra.
Qed.
(* rule 2 is compared, then rule 3 enters the archive; rule 2 is not compared with it later on *)
Lemma stale_score : exists (c : nscfg) (st s1 s2 st' : nst mean_learner) i j o1 o2 s ds, ready 1 dx dyy st /\ unseen st i /\ unseen st j /\
  rule_selection c [i] 1 0 st = (Ok o1, s1) /\ rule_selection c [j] 1 1 s1 = (Ok o2, s2) /\ arch s2 = arch st ++ [j] /\
  novelty NBasic TBasic 2 [i] s2 = (Ok [i], st') /\ novelty_is st' i (Fin s) /\
  Forall2 (fun j q => exists a b, matches_are s2 i a /\ matches_are s2 j b /\ distance_is a b q) (arch s2 ++ [i]) ds /\
  ~ mean_of_smallest (Nat.min 2 (length (arch s2 ++ [i]) - 1)) ds s.
Proof.
  set (c := mkNs (d_conf UniformSamples) 1 2 6 1 1 false (1#2) (Mut (MutNormal (Scalar 1))) RRandom NBasic TBasic ANovel 2).
  set (s1 := snd (rule_selection c [2]%nat 1 0 nst1)). set (s2 := snd (rule_selection c [3]%nat 1 1 s1)).
  exists c, nst1, s1, s2, (snd (novelty NBasic TBasic 2 [2]%nat s2)), 2%nat, 3%nat, [2]%nat, [3]%nat, 0, [2 # 3; 1 # 3; 0].
  split; [exact nst1_ready|]. split; [eexists; split; reflexivity|]. split; [eexists; split; reflexivity|].
  split; [vm_compute; reflexivity|]. split; [vm_compute; reflexivity|]. split; [vm_compute; reflexivity|]. split; [vm_compute; reflexivity|].
  split; [cell_fact|].
  assert (H2 : matches_are s2 2 [false; true; true]) by (eexists _, _; split; [vm_compute; reflexivity|]; split; vm_compute; reflexivity).
  assert (H0 : matches_are s2 0 [true; true; false]) by (eexists _, _; split; [vm_compute; reflexivity|]; split; vm_compute; reflexivity).
  assert (H3 : matches_are s2 3 [false; true; false]) by (eexists _, _; split; [vm_compute; reflexivity|]; split; vm_compute; reflexivity).
  assert (HA : arch s2 ++ [2%nat] = [0; 3; 2]%nat) by (vm_compute; reflexivity). rewrite HA. split.
  - constructor; [eexists _, _; split; [exact H2|]; split; [exact H0|]; split; [reflexivity|split; [discriminate|reflexivity]]|].
    constructor; [eexists _, _; split; [exact H2|]; split; [exact H3|]; split; [reflexivity|split; [discriminate|reflexivity]]|].
    constructor; [eexists _, _; split; [exact H2|]; split; [exact H2|]; split; [reflexivity|split; [discriminate|reflexivity]]|constructor].
  - exact not_mean.
Qed.
