(* The course of one call of fit. *)
From Coq Require Import Lia.
From Verif Require Import PyNum PyList PyMon PyRng L_Num L_List M_Matching M_Rule M_Mixing M_Fit S_Fit.

Lemma found_app {L} (a b : list (dcall L)) : found (a ++ b) = found a ++ found b.
Proof. unfold found. rewrite map_app, concat_app. reflexivity. Qed.
Lemma found_one {L} (c : dcall L) : found [c] = out_of c.
Proof. unfold found. cbn. apply app_nil_r. Qed.

(* ----- seeds ----- *)
Lemma evens_map {A} (f : nat -> A) : forall n i, evens (map f (seq i (n * 2))) = map (fun k => f (i + 2 * k)%nat) (seq 0 n).
Proof.
  induction n as [|n IH]; intros i; [reflexivity|]. cbn [Nat.mul Nat.add seq map evens]. rewrite IH. f_equal; [f_equal; lia|].
  rewrite <- seq_shift, map_map. apply map_ext. intros k. f_equal. lia.
Qed.
Lemma evens_two {A} (a b : A) l : evens (a :: b :: l) = a :: evens l.
Proof. reflexivity. Qed.
Lemma evens_map1 {A} (f : nat -> A) : forall m j, evens (map f (seq j (S (m * 2)))) = map (fun k => f (j + 2 * k)%nat) (seq 0 (S m)).
Proof.
  induction m as [|m IH]; intros j; [cbn; f_equal; f_equal; lia|].
  change (seq j (S (S m * 2))) with (j :: S j :: seq (S (S j)) (S (m * 2))). rewrite !map_cons, evens_two, IH.
  change (seq 0 (S (S m))) with (0%nat :: seq 1 (S m)). rewrite map_cons. f_equal; [f_equal; lia|].
  rewrite <- seq_shift, map_map. apply map_ext. intros k. f_equal. lia.
Qed.
Lemma odds_map {A} (f : nat -> A) : forall n i, odds (map f (seq i (n * 2))) = map (fun k => f (i + 2 * k + 1)%nat) (seq 0 n).
Proof.
  intros n i. destruct n as [|n]; [reflexivity|]. change (seq i (S n * 2)) with (i :: seq (S i) (S (n * 2))). rewrite map_cons. unfold odds.
  rewrite evens_map1. apply map_ext. intros k. f_equal. lia.
Qed.

Definition fresh_d (z : Z) (n : nat) : list seedseq := map (fun k => mkSeed (child_stream z (2 * k)) 0) (seq 0 n).
Definition fresh_c (z : Z) (n : nat) : list seedseq := map (fun k => mkSeed (child_stream z (2 * k + 1)) 0) (seq 0 n).
Lemma seeds_d z n : evens (fst (spawn (mkSeed (mkStream z []) 0) (n * 2))) = fresh_d z n.
Proof. unfold spawn. cbn [fst]. rewrite evens_map. apply map_ext. intros k. reflexivity. Qed.
Lemma seeds_c z n : odds (fst (spawn (mkSeed (mkStream z []) 0) (n * 2))) = fresh_c z n.
Proof. unfold spawn. cbn [fst]. rewrite odds_map. apply map_ext. intros k. reflexivity. Qed.

Lemma nth_error_map_seq {A} (f : nat -> A) n k : (k < n)%nat -> nth_error (map f (seq 0 n)) k = Some (f k).
Proof. intros H. rewrite nth_error_map. rewrite (nth_error_nth' _ 0%nat) by (rewrite seq_length; auto). rewrite seq_nth by auto. reflexivity. Qed.
Lemma nth_error_map_seq_none {A} (f : nat -> A) n k : (n <= k)%nat -> nth_error (map f (seq 0 n)) k = None.
Proof. intros H. apply nth_error_None. rewrite map_length, seq_length. auto. Qed.
Lemma map_snoc {A B} (f : A -> B) l x : map f (l ++ [x]) = map f l ++ [f x].
Proof. rewrite map_app. reflexivity. Qed.

Section Run.
Variable L : learner.
Variables (D : discovery L) (C : composition L) (G : logger L).
Notation RD := (recorded_d D).
Notation RC := (recorded_c C).
Notation est := (est RD RC G).
Variables (p : params) (z : Z) (X : matrix) (y : targets).

(* the facts that hold whenever fit looks at its own record: nd discoveries of the loop and nc compositions were started;
   k0 = 1 when there was an initial discovery, made with the seed of step s0 *)
Definition streams_d (k0 s0 nd : nat) : list stream :=
  repeat (child_stream z (2 * s0)) k0 ++ map (fun k => child_stream z (2 * k)) (seq 0 nd).
Record rcd (k0 s0 nd nc : nat) (e : est) : Prop := mkRcd {
  rc_k0 : (k0 <= 1)%nat;
  rc_disc : exists d, disc e = Some d;
  rc_comp : exists c, compo e = Some c;
  rc_logs : exists l, logs e = Some l;
  rc_max : max_len e = (n_rules p * n_iter p + n_initial p)%nat;
  rc_pool : pool e = found (dcalls e);
  rc_prev : previous e = Fin 0;
  rc_dlen : length (dcalls e) = (k0 + nd)%nat;
  rc_clen : length (ccalls e) = nc;
  rc_nd : (nd <= n_iter p)%nat;
  rc_order : nd = nc \/ nd = S nc;
  rc_grown : forall k c, nth_error (dcalls e) k = Some c -> d_pool c = found (firstn k (dcalls e));
  rc_cgrown : forall k c, nth_error (ccalls e) k = Some c -> c_pool c = found (firstn (k0 + S k) (dcalls e)) /\ c_max c = (n_rules p * n_iter p + n_initial p)%nat;
  rc_dseeds : map sstream (dseeds e) = map (fun k => child_stream z (2 * k)) (seq 0 (n_iter p));
  rc_dfresh : forall k, (nd <= k < n_iter p)%nat -> (k0 = 0%nat \/ k <> s0) -> nth_error (dseeds e) k = Some (mkSeed (child_stream z (2 * k)) 0);
  rc_cseeds : cseeds e = fresh_c z (n_iter p);
  rc_dstreams : map (fun c => sstream (d_seed c)) (dcalls e) = streams_d k0 s0 nd;
  rc_cstreams : map c_seed (ccalls e) = fresh_c z nc;
  rc_ns : map d_n (dcalls e) = repeat (n_initial p) k0 ++ repeat (n_rules p) nd;
  rc_fresh_calls : forall k c, k0 = 0%nat -> nth_error (dcalls e) k = Some c -> spawned (d_seed c) = 0%nat;
  rc_real : Forall (fun c => exists st, d_out c = fst (drun D X y (d_pool c) (d_elite c) (d_n c) (d_seed c) st)) (dcalls e);
  rc_elite : forall k c, nth_error (dcalls e) k = Some c -> handed_on C k0 (ccalls e) k c
}.
(* everything went well so far *)
Record fine (e : est) : Prop := mkFine {
  fi_err : is_error e = false;
  fi_d : Forall (fun c => exists rs, d_out c = Ok rs) (dcalls e);
  fi_c : Forall (fun c => c_out c = Ok tt) (ccalls e)
}.
(* elitist() now is what it was after the last composition *)
Definition last_best (e : est) : Prop :=
  forall st, compo e = Some st ->
    (ccalls e = [] -> cnew C = Ok (fst st)) /\ (forall cs c, ccalls e = cs ++ [c] -> cbest C (fst st) = c_best c).

Lemma nth_snoc {A} (l : list A) x k c : nth_error (l ++ [x]) k = Some c -> (nth_error l k = Some c /\ (k < length l)%nat) \/ (k = length l /\ c = x).
Proof.
  intros H. destruct (Nat.lt_ge_cases k (length l)) as [HL|HL].
  - left. rewrite nth_error_app1 in H by auto. auto.
  - rewrite nth_error_app2 in H by auto. destruct (k - length l)%nat as [|m] eqn:EM; [|destruct m; discriminate]. right. injection H as <-. split; [lia|auto].
Qed.
Lemma firstn_snoc {A} (l : list A) x k : (k <= length l)%nat -> firstn k (l ++ [x]) = firstn k l.
Proof. intros H. rewrite firstn_app. replace (k - length l)%nat with 0%nat by lia. cbn. apply app_nil_r. Qed.
Lemma update_map {A B} (f : A -> B) l : forall k x, (forall y, nth_error l k = Some y -> f y = f x) -> map f (update l k x) = map f l.
Proof.
  induction l as [|a l IH]; intros [|k] x H; cbn [update map]; auto.
  - f_equal. symmetry. apply H. reflexivity.
  - f_equal. apply IH. intros y0 HY. apply H. exact HY.
Qed.
Lemma nth_update_other {A} (l : list A) : forall k j x, j <> k -> nth_error (update l k x) j = nth_error l j.
Proof. induction l as [|a l IH]; intros [|k] [|j] x H; cbn; auto; try congruence. Qed.

(* ----- one discovery ----- *)
Definition disc_after (e : est) n el s (d : dst RD) : est :=
  let '(r, (k, d')) := drun D X y (pool e) el n s (fst d) in
  let e1 := set_seeds (update (dseeds e) (step e) (mkSeed (sstream s) (spawned s + k))) (cseeds e)
              (set_comps (Some ((d', snd d ++ [mkDcall (pool e) el n s r]) : dst RD)) (compo e) e) in
  match r with Ok new => set_pool (pool e ++ new) e1 | Raise _ => e1 end.
Definition disc_out (e : est) n el s (d : dst RD) : res unit :=
  match fst (drun D X y (pool e) el n s (fst d)) with Ok _ => Ok tt | Raise x => Raise x end.
Lemma discover_eq (e : est) n el s d : best e = Ok el -> disc e = Some d -> nth_error (dseeds e) (step e) = Some s ->
  discover X y n e = (disc_out e n el s d, disc_after e n el s d).
Proof.
  intros HB HD HS. unfold discover, disc_out, disc_after. unfold bind at 1. cbn [get]. unfold bind at 1. unfold lift at 1. rewrite HB.
  unfold the_disc. rewrite HD, HS. unfold of_option, bind, lift, assign. cbn [drun recorded_d].
  destruct (drun D X y (pool e) el n s (fst d)) as [[new|x] [k d']]; reflexivity.
Qed.
Lemma discover_cases (e : est) n : 
  (exists el s d, best e = Ok el /\ disc e = Some d /\ nth_error (dseeds e) (step e) = Some s /\ discover X y n e = (disc_out e n el s d, disc_after e n el s d)) \/
  (exists x, discover X y n e = (Raise x, e) /\ (best e = Raise x \/ disc e = None \/ (x = IndexError /\ nth_error (dseeds e) (step e) = None))).
Proof.
  destruct (best e) as [el|x] eqn:EB.
  - destruct (disc e) as [d|] eqn:ED.
    + destruct (nth_error (dseeds e) (step e)) as [s|] eqn:ES.
      * left. exists el, s, d. split; auto. split; auto. split; auto. apply discover_eq; auto.
      * right. exists IndexError. split; auto. unfold discover, bind, get, lift, the_disc. rewrite EB, ED. cbn [of_option]. rewrite ES. reflexivity.
    + right. exists AttributeError. split; auto. unfold discover, bind, get, lift, the_disc. rewrite EB, ED. reflexivity.
  - right. exists x. split; auto. unfold discover, bind, get, lift. rewrite EB. reflexivity.
Qed.

(* the model handed to the next discovery *)
Lemma new_elite (e : est) k0 k n el s r : last_best e -> (exists st, compo e = Some st) -> best e = Ok el -> length (ccalls e) = (k - k0)%nat ->
  handed_on C k0 (ccalls e) k (mkDcall (pool e) el n s r).
Proof.
  intros HLB [st HST] HB HL. unfold handed_on. cbn [d_elite d_pool]. rewrite <- HL. unfold best, the_compo in HB. rewrite HST in HB. cbn [of_option rbind cbest recorded_c] in HB.
  destruct (HLB st HST) as [H1 H2]. destruct (cbest C (fst st)) as [b|x] eqn:EC; [|discriminate]. cbn [rbind] in HB. injection HB as <-.
  destruct (ccalls e) as [|c cs] eqn:EL using rev_ind.
  - cbn. exists (fst st), b. auto.
  - rewrite app_length, Nat.add_comm. cbn [length Nat.add]. exists c, b. rewrite nth_error_app2, Nat.sub_diag by lia. split; [reflexivity|]. split; [|reflexivity].
    rewrite <- (H2 cs c eq_refl). reflexivity.
Qed.

(* ----- the record after a discovery ----- *)
Lemma in_seeds k0 s0 nd nc (e : est) k s : rcd k0 s0 nd nc e -> nth_error (dseeds e) k = Some s -> (k < n_iter p)%nat /\ sstream s = child_stream z (2 * k).
Proof.
  intros H HS. pose proof (rc_dseeds _ _ _ _ _ H) as HM.
  assert (HK : nth_error (map sstream (dseeds e)) k = Some (sstream s)) by (rewrite nth_error_map, HS; reflexivity).
  rewrite HM in HK. destruct (Nat.lt_ge_cases k (n_iter p)) as [HL|HL].
  - rewrite nth_error_map_seq in HK by auto. injection HK as HK. auto.
  - rewrite nth_error_map_seq_none in HK by auto. discriminate.
Qed.
(* what a further call adds to the record; a: the stage before, b: the stage after *)
Lemma disc_record k0 s0 nd nc k0' nd' (e : est) n el s d : rcd k0 s0 nd nc e -> disc e = Some d -> nth_error (dseeds e) (step e) = Some s ->
  (k0' <= 1)%nat -> (k0' + nd' = S (k0 + nd))%nat -> (k0 <= k0')%nat -> (nd <= nd' <= n_iter p)%nat -> (nd' = nc \/ nd' = S nc) ->
  (forall k, (k < nc)%nat -> (k0' + S k <= k0 + nd)%nat) -> (nc = 0%nat \/ k0' = k0) ->
  (forall k, (nd' <= k)%nat -> (k0' = 0%nat \/ k <> s0) -> k <> step e) ->
  streams_d k0' s0 nd' = streams_d k0 s0 nd ++ [child_stream z (2 * step e)] ->
  repeat (n_initial p) k0' ++ repeat (n_rules p) nd' = (repeat (n_initial p) k0 ++ repeat (n_rules p) nd) ++ [n] ->
  (k0' = 0%nat -> spawned s = 0%nat) ->
  (k0' = k0 /\ nd = nc \/ k0' = 1%nat /\ k0 = 0%nat /\ nd = 0%nat /\ nc = 0%nat) -> last_best e -> best e = Ok el ->
  rcd k0' s0 nd' nc (disc_after e n el s d).
Proof.
  intros H HD HS Hk1 Hk2 Hk3 Hk4 Hk5 Hk6 Hk7 Hk8 Hst Hns Hsp Hkk HLB HBE. pose proof (in_seeds _ _ _ _ _ _ _ H HS) as [HL HSS].
  unfold disc_after. destruct (drun D X y (pool e) el n s (fst d)) as [r [k d']] eqn:EDR.
  set (call := mkDcall (pool e) el n s r).
  set (e1 := set_seeds (update (dseeds e) (step e) (mkSeed (sstream s) (spawned s + k))) (cseeds e)
              (set_comps (Some ((d', snd d ++ [call]) : dst RD)) (compo e) e)).
  assert (HDC : dcalls e = snd d) by (unfold dcalls; rewrite HD; reflexivity).
  assert (EQ : exists e2, match r with Ok new => set_pool (pool e ++ new) e1 | Raise _ => e1 end = e2 /\
     dcalls e2 = dcalls e ++ [call] /\ ccalls e2 = ccalls e /\ pool e2 = pool e ++ out_of call /\
     (exists d2, disc e2 = Some d2) /\ compo e2 = compo e /\ logs e2 = logs e /\ max_len e2 = max_len e /\ previous e2 = previous e /\
     dseeds e2 = update (dseeds e) (step e) (mkSeed (sstream s) (spawned s + k)) /\ cseeds e2 = cseeds e).
  { eexists. split; [reflexivity|]. rewrite HDC. unfold out_of. cbn [d_out call].
    destruct r as [new|x]; cbn; (split; [reflexivity|]); (split; [reflexivity|]); (split; [|eauto 12]); auto. rewrite app_nil_r. reflexivity. }
  assert (HCP : d_pool call = found (dcalls e) /\ d_n call = n /\ d_seed call = s).
  { split; [exact (rc_pool _ _ _ _ _ H)|]. auto. }
  assert (HEl : handed_on C k0' (ccalls e) (k0 + nd) call).
  { apply new_elite; [auto|apply H|auto|]. destruct Hkk as [[-> ->]|(-> & -> & -> & ->)]; [|cbn; apply (rc_clen _ _ _ _ _ H)].
    replace (k0 + nc - k0)%nat with nc by lia. apply (rc_clen _ _ _ _ _ H). }
  assert (HReal : exists st, d_out call = fst (drun D X y (d_pool call) (d_elite call) (d_n call) (d_seed call) st)).
  { exists (fst d). cbn [call d_out d_pool d_elite d_n d_seed]. rewrite EDR. reflexivity. }
  destruct EQ as (e2 & -> & E1 & E2 & E3 & E4 & E5 & E6 & E7 & E8 & E9 & E10). clearbody call e1. clear HDC.
  destruct HCP as (HC1 & HC2 & HC3). pose proof (rc_dlen _ _ _ _ _ H) as HLen.
  constructor; rewrite ?E1, ?E2, ?E3, ?E5, ?E6, ?E7, ?E8, ?E9, ?E10; auto; try (apply H; fail).
  - rewrite found_app, found_one, (rc_pool _ _ _ _ _ H). reflexivity.
  - rewrite app_length, HLen. cbn. lia.
  - lia.
  - intros j c HJ. apply nth_snoc in HJ as [[HJ HJL]|[-> ->]].
    + rewrite firstn_snoc by lia. apply (rc_grown _ _ _ _ _ H); auto.
    + rewrite firstn_snoc, firstn_all by lia. auto.
  - intros j c HJ. destruct (rc_cgrown _ _ _ _ _ H j c HJ) as [HJ1 HJ2].
    assert (HJL : (j < nc)%nat) by (rewrite <- (rc_clen _ _ _ _ _ H); apply nth_error_Some; congruence).
    destruct Hk7 as [->| ->]; [lia|]. rewrite firstn_snoc; [auto|]. rewrite HLen. specialize (Hk6 j HJL). lia.
  - rewrite update_map; [apply H|]. intros s' HS'. rewrite HS in HS'. injection HS' as <-. reflexivity.
  - intros j HJ1 HJ2. rewrite nth_update_other; [|apply Hk8; lia]. apply (rc_dfresh _ _ _ _ _ H); [lia|]. destruct HJ2 as [HJ2|HJ2]; [left; lia|auto].
  - rewrite map_snoc, (rc_dstreams _ _ _ _ _ H), HC3, HSS, Hst. reflexivity.
  - rewrite map_snoc, (rc_ns _ _ _ _ _ H), HC2, Hns. reflexivity.
  - intros j c HJ HN. apply nth_snoc in HN as [[HN _]|[_ ->]].
    + apply (rc_fresh_calls _ _ _ _ _ H j); auto. lia.
    + rewrite HC3. auto.
  - apply Forall_app. split; [apply H|]. constructor; [exact HReal|constructor].
  - intros j c HJ. apply nth_snoc in HJ as [[HJ HJL]|[-> ->]].
    + pose proof (rc_elite _ _ _ _ _ H j c HJ) as HO. destruct Hkk as [[-> _]|(-> & -> & -> & ->)]; [exact HO|]. cbn in HLen. lia.
    + rewrite HLen. exact HEl.
Qed.
Lemma disc_record_main k0 s0 n (e : est) el s d : rcd k0 s0 n n e -> disc e = Some d -> nth_error (dseeds e) (step e) = Some s -> step e = n -> last_best e -> best e = Ok el ->
  rcd k0 s0 (S n) n (disc_after e (n_rules p) el s d).
Proof.
  intros H HD HS HN HLB HBE. pose proof (in_seeds _ _ _ _ _ _ _ H HS) as [HL HSS].
  apply disc_record with k0 n; auto; try lia.
  - apply H.
  - unfold streams_d. rewrite seq_S, map_app, app_assoc. cbn [Nat.add map]. rewrite HN. reflexivity.
  - rewrite <- app_assoc. f_equal. rewrite <- repeat_cons. reflexivity.
  - intros HK. rewrite (rc_dfresh _ _ _ _ _ H (step e)) in HS by (auto; lia). injection HS as <-. reflexivity.
Qed.
Lemma disc_record_init s0 (e : est) el s d : rcd 0 s0 0 0 e -> disc e = Some d -> nth_error (dseeds e) (step e) = Some s -> step e = s0 -> last_best e -> best e = Ok el ->
  rcd 1 s0 0 0 (disc_after e (n_initial p) el s d).
Proof.
  intros H HD HS HN HLB HBE. pose proof (in_seeds _ _ _ _ _ _ _ H HS) as [HL HSS].
  apply disc_record with 0%nat 0%nat; auto; try lia.
  unfold streams_d. cbn. rewrite HN. reflexivity.
Qed.

(* ----- the record after a composition ----- *)
Definition comp_after (e : est) s (c : cst RC) : est :=
  let '(r, c') := crun C X y (max_len e) (pool e) s (fst c) in
  set_comps (disc e) (Some ((c', snd c ++ [mkCcall (pool e) (max_len e) s r (cbest C c') (cpopulation C c')]) : cst RC)) e.
Definition comp_out (e : est) s (c : cst RC) : res unit := fst (crun C X y (max_len e) (pool e) s (fst c)).
Lemma compose_eq (e : est) s c : compo e = Some c -> nth_error (cseeds e) (step e) = Some s ->
  compose_step X y e = (comp_out e s c, comp_after e s c).
Proof.
  intros HC HS. unfold compose_step, comp_out, comp_after. unfold bind, get, lift, the_compo, assign. rewrite HC, HS. cbn [of_option crun recorded_c].
  destruct (crun C X y (max_len e) (pool e) s (fst c)) as [[[]|x] c']; reflexivity.
Qed.
Lemma comp_record k0 s0 n (e : est) : rcd k0 s0 (S n) n e -> step e = n ->
  exists s c r, compo e = Some c /\ nth_error (cseeds e) (step e) = Some s /\ rcd k0 s0 (S n) (S n) (comp_after e s c) /\
    ccalls (comp_after e s c) = ccalls e ++ [r] /\ c_out r = comp_out e s c /\ dcalls (comp_after e s c) = dcalls e /\ last_best (comp_after e s c).
Proof.
  intros H HN. destruct (rc_comp _ _ _ _ _ H) as [c HC].
  assert (HS : nth_error (cseeds e) (step e) = Some (mkSeed (child_stream z (2 * n + 1)) 0)).
  { rewrite (rc_cseeds _ _ _ _ _ H), HN. unfold fresh_c. rewrite nth_error_map_seq; [reflexivity|]. pose proof (rc_nd _ _ _ _ _ H). lia. }
  eexists _, c. unfold comp_after, comp_out. destruct (crun C X y (max_len e) (pool e) (mkSeed (child_stream z (2 * n + 1)) 0) (fst c)) as [r c'] eqn:EC.
  set (call := mkCcall (pool e) (max_len e) (mkSeed (child_stream z (2 * n + 1)) 0) r (cbest C c') (cpopulation C c')). exists call.
  split; [exact HC|]. split; [exact HS|]. rewrite EC.
  assert (HCC : ccalls e = snd c) by (unfold ccalls; rewrite HC; reflexivity).
  fold call. set (e2 := set_comps (disc e) (Some ((c', snd c ++ [call]) : cst RC)) e).
  assert (EC2 : ccalls e2 = ccalls e ++ [call]) by (rewrite HCC; reflexivity).
  split; [|split; [exact EC2|split; [reflexivity|split; [reflexivity|]]]].
  - pose proof (rc_clen _ _ _ _ _ H) as HLen.
    constructor; try (apply H; fail); auto.
    + exists (c', snd c ++ [call]). reflexivity.
    + rewrite EC2, app_length. cbn. lia.
    + intros k c0 HK. rewrite EC2 in HK. apply nth_snoc in HK as [[HK HKL]|[-> ->]].
      * apply (rc_cgrown _ _ _ _ _ H); auto.
      * cbn [call c_pool c_max]. split; [|apply H]. change (dcalls e2) with (dcalls e). rewrite firstn_all2; [apply H|]. rewrite (rc_dlen _ _ _ _ _ H). lia.
    + rewrite EC2, map_snoc, (rc_cstreams _ _ _ _ _ H). unfold fresh_c. rewrite seq_S, map_app. reflexivity.
    + intros k c0 HK. pose proof (rc_elite _ _ _ _ _ H k c0 HK) as HO. rewrite EC2. unfold handed_on in *. destruct (k - k0)%nat as [|j]; [exact HO|].
      destruct HO as (cc & b & HO1 & HO2). exists cc, b. split; [|exact HO2]. rewrite nth_error_app1; [exact HO1|]. apply nth_error_Some. congruence.
  - intros st HST. rewrite EC2. split; [intros HE; destruct (ccalls e); discriminate HE|]. intros cs c0 HE. apply app_inj_tail in HE as [_ <-].
    cbn in HST. injection HST as <-. reflexivity.
Qed.

(* ----- why fit stops ----- *)
(* fit raises x *)
Inductive blame (x : exn) (e : est) : Prop :=
| bl_disc c : In c (dcalls e) -> d_out c = Raise x -> python_exn x = false -> blame x e
| bl_comp c : In c (ccalls e) -> c_out c = Raise x -> python_exn x = false -> blame x e
| bl_best c : In c (ccalls e) -> c_out c = Ok tt -> (forall b, c_best c <> Ok (Some b)) -> fine e -> blame x e
| bl_fresh c : cnew C = Ok c -> cbest C c = Raise x -> fine e -> blame x e
| bl_log : ~ quiet G -> fine e -> blame x e
| bl_zero : n_iter p = 0%nat -> fine e -> blame x e.
(* fit ends in the error state *)
Inductive cause (s0 : nat) (e : est) : Prop :=
| ca_disc c x : In c (dcalls e) -> d_out c = Raise x -> cause s0 e
| ca_comp c x : In c (ccalls e) -> c_out c = Raise x -> cause s0 e
| ca_best c x : In c (ccalls e) -> c_best c = Raise x -> cause s0 e
| ca_fresh c x : cnew C = Ok c -> cbest C c = Raise x -> cause s0 e
| ca_zero : n_rules p = 0%nat -> cause s0 e
| ca_stale : (0 < n_initial p)%nat -> (n_iter p <= s0)%nat -> cause s0 e.

Lemma rcd_status k0 s0 nd nc (e : est) a b : rcd k0 s0 nd nc e -> rcd k0 s0 nd nc (set_status a b e).
Proof. intros []. constructor; auto. Qed.
Lemma rcd_step k0 s0 nd nc (e : est) i : rcd k0 s0 nd nc e -> rcd k0 s0 nd nc (set_step i e).
Proof. intros []. constructor; auto. Qed.
Lemma rcd_counter k0 s0 nd nc (e : est) i : rcd k0 s0 nd nc e -> rcd k0 s0 nd nc (set_counter i e).
Proof. intros []. constructor; auto. Qed.
Lemma rcd_logs k0 s0 nd nc (e : est) l : rcd k0 s0 nd nc e -> rcd k0 s0 nd nc (set_logs (Some l) e).
Proof. intros []. constructor; auto. cbn. eauto. Qed.
Lemma rcd_elitist k0 s0 nd nc (e : est) m : rcd k0 s0 nd nc e -> rcd k0 s0 nd nc (set_elitist m e).
Proof. intros []. constructor; auto. Qed.
Lemma cause_status s0 (e : est) a b : cause s0 e -> cause s0 (set_status a b e).
Proof. intros [c x|c x|c x|c x| |]; [eapply ca_disc|eapply ca_comp|eapply ca_best|eapply ca_fresh|eapply ca_zero|eapply ca_stale]; eauto. Qed.

(* best, from the record *)
Lemma best_last (e : est) cs c : (exists st, compo e = Some st) -> last_best e -> ccalls e = cs ++ [c] ->
  best e = let? s := c_best c in Ok (option_map (with_pool (pool e)) s).
Proof. intros [st HST] HB HC. unfold best, the_compo. rewrite HST. cbn [of_option rbind cbest recorded_c]. destruct (HB st HST) as [_ H]. rewrite (H cs c HC). reflexivity. Qed.
Lemma best_raises (e : est) x : last_best e -> (exists st, compo e = Some st) -> best e = Raise x ->
  (exists c, cnew C = Ok c /\ cbest C c = Raise x) \/ (exists c, In c (ccalls e) /\ c_best c = Raise x).
Proof.
  intros HB [st HST] H. unfold best, the_compo in H. rewrite HST in H. cbn [of_option rbind cbest recorded_c] in H.
  destruct (HB st HST) as [HB1 HB2]. destruct (cbest C (fst st)) as [o|x'] eqn:EC; [discriminate|]. injection H as <-.
  destruct (ccalls e) as [|c0 l] eqn:EL using rev_ind; [left; eauto|]. right. exists c0. split; [apply in_or_app; right; left; auto|].
  rewrite <- (HB2 l c0 eq_refl). reflexivity.
Qed.

(* ----- one safe discovery, at the beginning or in the loop ----- *)
Lemma discover_safely_record k0 s0 nd nc k0' nd' (e : est) n : rcd k0 s0 nd nc e -> fine e -> last_best e ->
  (forall el s d, best e = Ok el -> disc e = Some d -> nth_error (dseeds e) (step e) = Some s -> rcd k0' s0 nd' nc (disc_after e n el s d)) ->
  (n = 0%nat -> n_rules p = 0%nat) -> (nth_error (dseeds e) (step e) = None -> cause s0 e) ->
  match discover_safely X y n e with
  | (Ok false, e') => rcd k0' s0 nd' nc e' /\ fine e' /\ last_best e' /\ step e' = step e /\ is_fitted e' = is_fitted e /\ counter e' = counter e /\ ccalls e' = ccalls e /\ elitist e' = elitist e
  | (Ok true, e') => (rcd k0 s0 nd nc e' \/ rcd k0' s0 nd' nc e') /\ is_error e' = true /\ is_fitted e' = true /\ cause s0 e' /\ elitist e' = elitist e
  | (Raise x, e') => (rcd k0 s0 nd nc e' \/ rcd k0' s0 nd' nc e') /\ blame x e' 
  end.
Proof.
  intros H HF HB HR HZ HST. unfold discover_safely, catch. destruct (Nat.eqb n 0) eqn:EN.
  { apply Nat.eqb_eq in EN. cbn. split; [left; apply rcd_status; auto|]. split; auto. split; auto. split; auto. apply ca_zero. auto. }
  clear EN HZ. destruct (discover_cases e n) as [(el & s & d & EB & ED & ES & HE)|(x & HE & HC)]; rewrite HE; clear HE.
  - specialize (HR el s d EB ED ES). unfold disc_out. assert (HD : exists c, dcalls (disc_after e n el s d) = dcalls e ++ [c] /\ d_out c = fst (drun D X y (pool e) el n s (fst d)) /\
       ccalls (disc_after e n el s d) = ccalls e /\ compo (disc_after e n el s d) = compo e /\ is_error (disc_after e n el s d) = is_error e /\
       step (disc_after e n el s d) = step e /\ is_fitted (disc_after e n el s d) = is_fitted e /\ counter (disc_after e n el s d) = counter e /\ elitist (disc_after e n el s d) = elitist e).
    { unfold disc_after. destruct (drun D X y (pool e) el n s (fst d)) as [r [k d']]. eexists. cbn [fst]. unfold dcalls at 2. rewrite ED.
      destruct r; cbn; repeat split; reflexivity. }
    destruct HD as (c & HD1 & HD2 & HD3 & HD4 & HD5 & HD6 & HD7 & HD8 & HD9). destruct (fst (drun D X y (pool e) el n s (fst d))) as [rs|x].
    + split; auto. split; [|split; [|auto 12]].
      * constructor; [rewrite HD5; apply HF| |rewrite HD3; apply HF]. rewrite HD1. apply Forall_app. split; [apply HF|]. constructor; [eauto|constructor].
      * unfold last_best. rewrite HD3, HD4. exact HB.
    + destruct (python_exn x) eqn:EP.
      * split; [right; apply rcd_status; auto|]. split; auto. split; auto. split; [|cbn; auto]. apply cause_status. eapply ca_disc; [|exact HD2]. rewrite HD1. apply in_or_app. right. left. auto.
      * split; auto. eapply bl_disc; eauto. rewrite HD1. apply in_or_app. right. left. auto.
  - pose proof (rc_comp _ _ _ _ _ H) as HCo. destruct HC as [HC|[HC|HC]].
    + destruct (best_raises e x HB HCo HC) as [(c & HC1 & HC2)|(c & HC1 & HC2)]; destruct (python_exn x) eqn:EP.
      * split; [left; apply rcd_status; auto|]. split; auto. split; auto. split; auto. apply cause_status. eapply ca_fresh; eauto.
      * split; auto. eapply bl_fresh; eauto.
      * split; [left; apply rcd_status; auto|]. split; auto. split; auto. split; auto. apply cause_status. eapply ca_best; eauto.
      * split; auto. eapply bl_best; eauto; [|rewrite HC2; discriminate]. pose proof (fi_c _ HF) as HFC. rewrite Forall_forall in HFC. auto.
    + destruct (rc_disc _ _ _ _ _ H) as [d HD]. congruence.
    + destruct HC as [-> HC]. cbn [python_exn]. split; [left; apply rcd_status; auto|]. split; auto. split; auto. split; auto. apply cause_status; auto.
Qed.

(* ----- early stopping ----- *)
Definition stale (fs : list num) : nat := fold_left (fun k f => if nlt (Fin (delta p)) f then 0%nat else S k) fs 0%nat.
Definition es_inv (e : est) : Prop :=
  (0 < patience p)%Z -> exists fs, Forall2 elite_fitness (ccalls e) fs /\ counter e = stale fs /\
    forall k, (k <= length fs)%nat -> (Z.of_nat (stale (firstn k fs)) < patience p)%Z.
Definition es_stop (e : est) : Prop :=
  (0 < patience p)%Z /\ exists fs, Forall2 elite_fitness (ccalls e) fs /\ (patience p <= Z.of_nat (stale fs))%Z /\
    forall k, (k < length fs)%nat -> (Z.of_nat (stale (firstn k fs)) < patience p)%Z.
Lemma nlt_sub_zero d f : nlt (Fin d) (nsub f (Fin 0)) = nlt (Fin d) f.
Proof.
  destruct f as [q| | |]; try reflexivity. unfold nsub, nadd, nneg, nlt.
  assert (E : q + - 0 == q) by (unfold Qminus; ring). destruct (qlt_spec d (q + - 0)), (qlt_spec d q); auto; exfalso.
  - rewrite E in *. eapply Qlt_not_le; eauto.
  - rewrite E in *. eapply Qlt_not_le; eauto.
Qed.
Lemma stale_snoc fs f : stale (fs ++ [f]) = if nlt (Fin (delta p)) f then 0%nat else S (stale fs).
Proof. unfold stale. rewrite fold_left_app. reflexivity. Qed.
Lemma check_es k0 s0 n (e : est) cs c : rcd k0 s0 n n e -> last_best e -> ccalls e = cs ++ [c] ->
  ((0 < patience p)%Z -> exists fs, Forall2 elite_fitness cs fs /\ counter e = stale fs /\ forall k, (k <= length fs)%nat -> (Z.of_nat (stale (firstn k fs)) < patience p)%Z) ->
  match check_early_stopping p e with
  | (Ok b, e') => (e' = e \/ exists i, e' = set_counter i e) /\ if b then es_stop e' else es_inv e'
  | (Raise x, e') => e' = e /\ forall b, c_best c <> Ok (Some b)
  end.
Proof.
  intros H HB HC HI. unfold check_early_stopping. destruct (Z.ltb_spec 0 (patience p)) as [HP|HP]; [|cbn; split; [auto|]; intros HP'; lia].
  destruct (HI HP) as (fs & HF & HCo & HK). clear HI. unfold bind at 1. cbn [get]. unfold bind at 1, lift at 1.
  rewrite (best_last e cs c (rc_comp _ _ _ _ _ H) HB HC). destruct (c_best c) as [[b|]|x] eqn:EB; cbn [rbind option_map].
  2,3: split; auto; discriminate.
  unfold bind at 1, lift at 1. cbn [of_option with_pool eatt]. rewrite (rc_prev _ _ _ _ _ H), nlt_sub_zero.
  assert (HF' : Forall2 elite_fitness (cs ++ [c]) (fs ++ [sfitness (smeasured b)])).
  { apply Forall2_app; auto. constructor; [|constructor]. exists b. auto. }
  pose proof (stale_snoc fs (sfitness (smeasured b))) as HS.
  assert (HK' : forall k, (k < length (fs ++ [sfitness (smeasured b)]))%nat -> (Z.of_nat (stale (firstn k (fs ++ [sfitness (smeasured b)]))) < patience p)%Z).
  { intros k HL. rewrite app_length in HL. cbn in HL. rewrite firstn_snoc by lia. apply HK. lia. }
  assert (HK2 : (Z.of_nat (stale (fs ++ [sfitness (smeasured b)])) < patience p)%Z -> forall k, (k <= length (fs ++ [sfitness (smeasured b)]))%nat -> (Z.of_nat (stale (firstn k (fs ++ [sfitness (smeasured b)]))) < patience p)%Z).
  { intros HL k HKL. destruct (Nat.eq_dec k (length (fs ++ [sfitness (smeasured b)]))) as [->|HNE]; [rewrite firstn_all; auto|]. apply HK'. lia. }
  destruct (nlt (Fin (delta p)) (sfitness (smeasured b))) eqn:EL.
  - unfold bind, assign, ret. split; [right; eauto|]. intros _. exists (fs ++ [sfitness (smeasured b)]).
    change (ccalls (set_counter 0 e)) with (ccalls e). rewrite HC. split; auto. split; [rewrite HS; reflexivity|]. apply HK2. rewrite HS. exact HP.
  - unfold bind, assign, ret. split; [right; eauto|]. rewrite <- HCo in HS. destruct (Z.leb_spec (patience p) (Z.of_nat (S (counter e)))) as [HL|HL].
    + split; auto. exists (fs ++ [sfitness (smeasured b)]). change (ccalls (set_counter (S (counter e)) e)) with (ccalls e). rewrite HC. split; auto. split; auto. rewrite HS. auto.
    + intros _. exists (fs ++ [sfitness (smeasured b)]). change (ccalls (set_counter (S (counter e)) e)) with (ccalls e). rewrite HC.
      split; auto. split; [rewrite HS; reflexivity|]. apply HK2. rewrite HS. auto.
Qed.
Lemma fine_counter e i : fine e -> fine (set_counter i e). Proof. intros []. constructor; auto. Qed.
Lemma fine_step e i : fine e -> fine (set_step i e). Proof. intros []. constructor; auto. Qed.
Lemma fine_logs e l : fine e -> fine (set_logs l e). Proof. intros []. constructor; auto. Qed.

(* ----- the loop ----- *)
Definition outcome (k0 s0 : nat) (out : res bool * est) : Prop :=
  match out with
  | (Ok false, e') => exists n, rcd k0 s0 n n e' /\ fine e' /\ last_best e' /\ (n = n_iter p /\ es_inv e' \/ es_stop e') /\ elitist e' = Some Placeholder
  | (Ok true, e') => (exists nd nc, rcd k0 s0 nd nc e') /\ is_error e' = true /\ is_fitted e' = true /\ cause s0 e' /\ elitist e' = Some Placeholder
  | (Raise x, e') => (exists nd nc, rcd k0 s0 nd nc e') /\ blame x e'
  end.
Lemma loop_outcome k0 s0 : forall m i (e : est), (i + m = n_iter p)%nat -> rcd k0 s0 i i e -> fine e -> last_best e -> es_inv e -> elitist e = Some Placeholder ->
  outcome k0 s0 (main_loop p X y (seq i m) e).
Proof.
  induction m as [|m IH]; intros i e HM H HF HB HE HP.
  - cbn. exists i. split; auto. split; auto. split; auto. split; auto. left. split; [lia|auto].
  - cbn [seq main_loop]. unfold bind at 1, assign at 1. cbv beta iota zeta. set (e1 := set_step i e).
    assert (H1 : rcd k0 s0 i i e1) by (apply rcd_step; auto). assert (HF1 : fine e1) by (apply fine_step; auto).
    assert (HB1 : last_best e1) by exact HB.
    assert (HSeed : exists s, nth_error (dseeds e1) (step e1) = Some s).
    { destruct (nth_error (dseeds e1) (step e1)) as [s|] eqn:ES; eauto. exfalso. apply nth_error_None in ES. 
      assert (HL : length (dseeds e1) = n_iter p) by (rewrite <- (map_length sstream), (rc_dseeds _ _ _ _ _ H1), map_length, seq_length; reflexivity).
      cbn [step e1 set_step] in ES. lia. }
    pose proof (discover_safely_record k0 s0 i i k0 (S i) e1 (n_rules p) H1 HF1 HB1) as HD.
    assert (HD1 : forall el s d, best e1 = Ok el -> disc e1 = Some d -> nth_error (dseeds e1) (step e1) = Some s -> rcd k0 s0 (S i) i (disc_after e1 (n_rules p) el s d)).
    { intros el s d HBE HDD HS. apply disc_record_main; auto. }
    specialize (HD HD1 (fun h => h)). assert (HD2 : nth_error (dseeds e1) (step e1) = None -> cause s0 e1) by (destruct HSeed as [s HS]; rewrite HS; discriminate).
    specialize (HD HD2). clear HD1 HD2 HSeed. unfold bind at 1. destruct (discover_safely X y (n_rules p) e1) as [[[|]|x] e2].
    + cbn. destruct HD as (HD1 & HD2 & HD3 & HD4 & HD5). split; [destruct HD1; eauto|]. split; auto. split; auto. split; auto. rewrite HD5. exact HP.
    + destruct HD as (H2 & HF2 & HB2 & HS2 & _ & HCo2 & HCC2 & HP2). 
      destruct (comp_record k0 s0 i e2 H2 HS2) as (s & c & r & HC1 & HC2 & H3 & HCC3 & HCO3 & HDC3 & HB3).
      unfold bind at 1. unfold compose_safely, catch. rewrite (compose_eq e2 s c HC1 HC2). rewrite <- HCO3.
      assert (HSame : step (comp_after e2 s c) = step e2 /\ is_error (comp_after e2 s c) = is_error e2 /\ counter (comp_after e2 s c) = counter e2 /\ elitist (comp_after e2 s c) = elitist e2).
      { unfold comp_after. destruct (crun C X y (max_len e2) (pool e2) s (fst c)). cbn. auto. }
      destruct HSame as (HA1 & HA2 & HA3 & HA4). set (e3 := comp_after e2 s c) in *. clearbody e3.
      destruct (c_out r) as [[]|x] eqn:EO.
      * assert (HF3 : fine e3).
        { constructor; [rewrite HA2; apply HF2|rewrite HDC3; apply HF2|]. rewrite HCC3. apply Forall_app. split; [apply HF2|]. constructor; [auto|constructor]. }
        unfold bind at 1. cbn [get]. unfold bind at 1, lift at 1. unfold the_logs at 1. destruct (rc_logs _ _ _ _ _ H3) as [l HL]. rewrite HL. cbn [of_option].
        unfold bind at 1, lift at 1. destruct (literation G X y (step e3) (pool e3) (population e3) (best e3) l) as [l'|x] eqn:EL.
        2:{ cbn. split; [eauto|]. apply bl_log; auto. intros (_ & HQ & _). destruct (HQ X y (step e3) (pool e3) (population e3) (best e3) l) as [l' HQ']. congruence. }
        unfold bind at 1, assign at 1. set (e4 := set_logs (Some l') e3). assert (H4 : rcd k0 s0 (S i) (S i) e4) by (apply rcd_logs; auto).
        assert (HF4 : fine e4) by (apply fine_logs; auto). unfold bind at 1.
        assert (HCC4 : ccalls e4 = ccalls e2 ++ [r]) by exact HCC3.
        assert (HPre : (0 < patience p)%Z -> exists fs, Forall2 elite_fitness (ccalls e2) fs /\ counter e4 = stale fs /\ forall k, (k <= length fs)%nat -> (Z.of_nat (stale (firstn k fs)) < patience p)%Z).
        { rewrite HCC2. replace (counter e4) with (counter e1); [exact HE|]. change (counter e4) with (counter e3). congruence. }
        pose proof (check_es k0 s0 (S i) e4 _ r H4 HB3 HCC4 HPre) as HX.
        destruct (check_early_stopping p e4) as [[b|x] e5].
        -- destruct HX as [HX1 HX2].
           assert (H5 : rcd k0 s0 (S i) (S i) e5 /\ fine e5 /\ last_best e5 /\ elitist e5 = Some Placeholder).
           { assert (HP4 : elitist e4 = Some Placeholder) by (change (elitist e4) with (elitist e3); rewrite HA4, HP2; exact HP).
             destruct HX1 as [->|[k ->]]; [auto 6|]. split; [apply rcd_counter; auto|]. split; [apply fine_counter; auto|]. split; auto. }
           destruct H5 as (H5 & HF5 & HB5 & HP5). destruct b.
           ++ cbn. exists (S i). auto 8.
           ++ apply IH; auto. lia.
        -- destruct HX as [-> HX]. cbn. split; [eauto|]. apply bl_best with r; auto. rewrite HCC4. apply in_or_app. right. left. auto.
      * destruct (python_exn x) eqn:EP; cbn.
        -- split; [exists (S i), (S i); apply rcd_status; auto|]. split; auto. split; auto. split.
           ++ apply cause_status. eapply ca_comp; [|exact EO]. rewrite HCC3. apply in_or_app. right. left. auto.
           ++ change (elitist e3 = Some Placeholder). rewrite HA4, HP2. exact HP.
        -- split; [eauto|]. eapply bl_comp; eauto. rewrite HCC3. apply in_or_app. right. left. auto.
    + destruct HD as [HD1 HD2]. cbn. split; [destruct HD1; eauto|auto].
Qed.

(* ----- before the loop ----- *)
Definition started (e : est) d c l : est :=
  mkEst (step e) 0 (Fin 0) false (is_fitted e) (Some Placeholder) [] (fresh_d z (n_iter p)) (fresh_c z (n_iter p))
    (Some ((d, []) : dst RD)) (Some ((c, []) : cst RC)) (Some l) (n_rules p * n_iter p + n_initial p).
Lemma started_rcd e d c l : rcd 0 (step e) 0 0 (started e d c l).
Proof.
  constructor; cbn; auto; try lia; eauto.
  - intros [|k] c0 H; discriminate.
  - intros [|k] c0 H; discriminate.
  - unfold fresh_d. rewrite map_map. reflexivity.
  - intros k HK _. unfold fresh_d. rewrite nth_error_map_seq by lia. reflexivity.
  - intros [|k] c0 _ H; discriminate.
  - intros [|k] c0 H; discriminate.
Qed.
Lemma started_fine e d c l : fine (started e d c l).
Proof. constructor; cbn; auto. Qed.
Lemma started_best e d c l : cnew C = Ok c -> last_best (started e d c l).
Proof. intros HC st H. cbn in H. injection H as <-. split; [auto|]. intros cs r HE. destruct cs; discriminate HE. Qed.
Lemma started_es e d c l : es_inv (started e d c l).
Proof.
  intros HP. exists []. split; [constructor|]. split; [reflexivity|]. intros k _. rewrite firstn_nil. cbn. exact HP.
Qed.
Definition after_init (e : est) : res bool * est := (if Nat.ltb 0 (n_initial p) then discover_safely X y (n_initial p) else ret false) e.
(* what fit leaves, without cleanup *)
Definition fit_end (s0 : nat) (out : res unit * est) : Prop :=
  exists k0 nd nc, k0 = (if Nat.ltb 0 (n_initial p) then 1 else 0)%nat /\
  match out with
  | (Ok _, e') =>
      ((rcd k0 s0 nd nc e' \/ rcd 0 s0 0 0 e') /\ is_error e' = true /\ is_fitted e' = true /\ cause s0 e' /\ elitist e' = Some Placeholder) \/
      (rcd k0 s0 nd nc e' /\ nd = nc /\ fine e' /\ is_fitted e' = true /\ (nd = n_iter p /\ es_inv e' \/ es_stop e') /\
       last_best e' /\ exists st b, compo e' = Some st /\ cbest C (fst st) = Ok (Some b) /\ elitist e' = Some (Learned (with_pool (pool e') b)))
  | (Raise x, e') => (rcd k0 s0 nd nc e' \/ rcd 0 s0 0 0 e') /\ blame x e'
  end.
Lemma no_stop_empty (e : est) : ccalls e = [] -> ~ es_stop e.
Proof. intros HC (HP & fs & HF & HS & _). rewrite HC in HF. inversion HF; subst. cbn in HS. lia. Qed.
Lemma fine_elitist e m : fine e -> fine (set_elitist m e). Proof. intros []. constructor; auto. Qed.
Lemma fine_fitted e : fine e -> fine (set_status (is_error e) true e). Proof. intros []. constructor; auto. Qed.
Lemma finish_end k0 s0 (e : est) : (k0 = if Nat.ltb 0 (n_initial p) then 1 else 0)%nat -> outcome k0 s0 (Ok false, e) -> fit_end s0 (finish false X y e).
Proof.
  intros HK (n & H & HF & HB & HE & HP). exists k0, n, n. split; auto. unfold finish. unfold bind at 1. cbn [get]. unfold bind at 1, lift at 1.
  destruct (rc_comp _ _ _ _ _ H) as [st HST]. 
  assert (HBE : best e = let? s := cbest C (fst st) in Ok (option_map (with_pool (pool e)) s)).
  { unfold best, the_compo. rewrite HST. reflexivity. }
  assert (HBl : forall x, (forall b, cbest C (fst st) <> Ok (Some b)) -> blame x e).
  { intros x HX. destruct (HB st HST) as [_ HB2]. destruct (ccalls e) as [|c cs] eqn:EL using rev_ind.
    - apply bl_zero; auto. destruct HE as [[HE _]|HE]; [|exfalso; eapply no_stop_empty; eauto].
      rewrite <- HE. rewrite <- (rc_clen _ _ _ _ _ H), EL. reflexivity.
    - apply bl_best with c; auto.
      + rewrite EL. apply in_or_app. right. left. auto.
      + pose proof (fi_c _ HF) as HFC. rewrite EL in HFC. apply Forall_app in HFC as [_ HFC]. inversion HFC; auto.
      + rewrite <- (HB2 cs c eq_refl). exact HX. }
  rewrite HBE. destruct (cbest C (fst st)) as [[b|]|x] eqn:EC; cbn [rbind option_map].
  2:{ cbn. split; auto. apply HBl. discriminate. }
  2:{ split; auto. apply HBl. discriminate. }
  clear HBl. unfold bind at 1, lift at 1. cbn [of_option]. unfold bind at 1, assign at 1. unfold bind at 1, assign at 1. unfold bind at 1. cbn [get].
  set (e1 := set_elitist (Some (Learned (with_pool (pool e) b))) e). set (e2 := set_status (is_error e1) true e1).
  assert (H2 : rcd k0 s0 n n e2) by (apply rcd_status, rcd_elitist; auto). assert (HF2 : fine e2) by (apply fine_fitted, fine_elitist; auto).
  unfold bind at 1, lift at 1. unfold the_logs at 1. destruct (rc_logs _ _ _ _ _ H2) as [l HL]. rewrite HL. cbn [of_option].
  unfold bind at 1, lift at 1. destruct (lfinal G X y (pool e2) (Learned (with_pool (pool e) b)) l) as [l'|x] eqn:EL.
  2:{ split; auto. apply bl_log; auto. intros (_ & _ & HQ). destruct (HQ X y (pool e2) (Learned (with_pool (pool e) b)) l) as [l' HQ']. congruence. }
  unfold bind at 1, assign at 1. unfold ret. right. split; [apply rcd_logs; auto|]. split; auto. split; [apply fine_logs; auto|]. split; [reflexivity|].
  split; [exact HE|]. split; [exact HB|]. exists st, b. auto.
Qed.
Lemma fit_outcome os (e : est) d c l : z = root_seed os (random_state p) ->
  prepare p os X y e = (Ok tt, started e d c l) -> cnew C = Ok c -> fit_end (step e) (fit p os false X y e).
Proof.
  intros HZ HPr HC. unfold fit. unfold bind at 1. rewrite HPr. set (e0 := started e d c l). unfold bind at 1.
  assert (H0 : rcd 0 (step e) 0 0 e0) by apply started_rcd. assert (HF0 : fine e0) by apply started_fine.
  assert (HB0 : last_best e0) by (apply started_best; auto). assert (HE0 : es_inv e0) by apply started_es.
  assert (HR : forall k0 e1, (k0 = if Nat.ltb 0 (n_initial p) then 1 else 0)%nat -> rcd k0 (step e) 0 0 e1 -> fine e1 -> last_best e1 -> es_inv e1 -> elitist e1 = Some Placeholder ->
    fit_end (step e) (bind (main_loop p X y (seq 0 (n_iter p))) (fun failed => if failed then ret tt else finish false X y) e1)).
  { intros k0 e1 HK H1 HF1 HB1 HE1 HP1. unfold bind at 1. pose proof (loop_outcome k0 (step e) (n_iter p) 0 e1 eq_refl H1 HF1 HB1 HE1 HP1) as HO.
    destruct (main_loop p X y (seq 0 (n_iter p)) e1) as [[[|]|x] e2].
    - destruct HO as ((nd & nc & HO1) & HO2). exists k0, nd, nc. split; auto. cbn. left. split; auto.
    - apply (finish_end k0); auto.
    - destruct HO as ((nd & nc & HO1) & HO2). exists k0, nd, nc. split; auto. }
  destruct (Nat.ltb 0 (n_initial p)) eqn:EI.
  - pose proof EI as EI'. apply Nat.ltb_lt in EI. pose proof (discover_safely_record 0 (step e) 0 0 1 0 e0 (n_initial p) H0 HF0 HB0) as HD.
    assert (HD1 : forall el s d0, best e0 = Ok el -> disc e0 = Some d0 -> nth_error (dseeds e0) (step e0) = Some s -> rcd 1 (step e) 0 0 (disc_after e0 (n_initial p) el s d0)).
    { intros el s d0 HBE HDD HS. apply disc_record_init; auto. }
    assert (HD2 : n_initial p = 0%nat -> n_rules p = 0%nat) by (intros; lia).
    assert (HD3 : nth_error (dseeds e0) (step e0) = None -> cause (step e) e0).
    { intros HN. apply ca_stale; auto. apply nth_error_None in HN. cbn in HN. unfold fresh_d in HN. rewrite map_length, seq_length in HN. auto. }
    specialize (HD HD1 HD2 HD3). destruct (discover_safely X y (n_initial p) e0) as [[[|]|x] e1].
    + destruct HD as (HD4 & HD5 & HD6 & HD7 & HD8). exists 1%nat, 0%nat, 0%nat. split; [rewrite EI'; auto|]. left. split; [destruct HD4; auto|]. auto.
    + destruct HD as (H1 & HF1 & HB1 & _ & _ & HCo & HCC & HP1). apply (HR 1%nat); [first [reflexivity|rewrite EI'; reflexivity]|auto|auto|auto| |auto]. intros HP. rewrite HCC, HCo. apply HE0. exact HP.
    + destruct HD as [HD4 HD5]. exists 1%nat, 0%nat, 0%nat. split; [rewrite EI'; auto|]. split; [destruct HD4; auto|auto].
  - apply (HR 0%nat); [first [reflexivity|rewrite EI; reflexivity]|auto..].
Qed.
End Run.

(* ----- preparation ----- *)
Section Prepare.
Variable L : learner.
Variables (D : discovery L) (C : composition L) (G : logger L).
Lemma check_X_ok X : check_X X = Ok tt <-> good_table X.
Proof.
  unfold check_X, good_table. destruct X as [|x X]; [split; [discriminate|intros (d & _ & H & _); congruence]|].
  destruct (Nat.eqb_spec (length x) 0) as [E|E]; cbn [orb negb].
  - split; [discriminate|]. intros (d & H1 & _ & H2). inversion H2; subst. congruence.
  - destruct (forallb (fun r => Nat.eqb (length r) (length x)) (x :: X)) eqn:EF; cbn [negb].
    + split; auto. intros _. exists (length x). split; auto. split; [discriminate|]. apply Forall_forall. intros r HR.
      apply forallb_forall with (x := r) in EF; auto. apply Nat.eqb_eq in EF. auto.
    + split; [discriminate|]. intros (d & H1 & _ & H2). exfalso. assert (HT : forallb (fun r => Nat.eqb (length r) (length x)) (x :: X) = true); [|congruence].
      apply forallb_forall. intros r HR. rewrite Forall_forall in H2. apply Nat.eqb_eq. rewrite (H2 r HR). symmetry. apply H2. left. auto.
Qed.
Lemma check_X_y_ok X y : check_X_y X y = Ok tt <-> good_data X y.
Proof.
  unfold check_X_y, good_data. rewrite <- check_X_ok. destruct (check_X X) as [[]|x]; cbn [rbind]; [|split; [discriminate|intros [? _]; discriminate]].
  destruct (Nat.eqb_spec (length y) (length X)); split; auto; try discriminate; intros [_ ?]; congruence.
Qed.
Lemma check_X_value X x : check_X X = Raise x -> x = ValueError.
Proof. unfold check_X. destruct X as [|r X]; [congruence|]. destruct (_ || _); congruence. Qed.
Lemma seedable_ok os r : seedable r -> check_random_state r = Ok tt /\ seed_sequence os r = Ok (mkSeed (mkStream (root_seed os r) []) 0).
Proof.
  destruct r as [|v| |]; cbn; try contradiction; auto. intros H. destruct (Z.ltb_spec v 0); [lia|]. auto.
Qed.
Lemma prepare_ok p os X y (e : est (recorded_d D) (recorded_c C) G) d c l : good_data X y -> seedable (random_state p) ->
  dnew D X = Ok d -> cnew C = Ok c -> linit G = Ok l ->
  prepare p os X y e = (Ok tt, started L D C G p (root_seed os (random_state p)) e d c l).
Proof.
  intros HG HS HD HC HL. apply check_X_y_ok in HG. destruct (seedable_ok os _ HS) as [HS1 HS2].
  unfold prepare. do 4 (unfold bind at 1; unfold assign at 1). unfold bind at 1, lift at 1. rewrite HG. unfold bind at 1, lift at 1. rewrite HS1.
  unfold bind at 1, lift at 1. rewrite HS2. cbv zeta. do 2 (unfold bind at 1; unfold assign at 1).
  unfold bind at 1, lift at 1. cbn [dnew recorded_d]. rewrite HD. cbn [rbind]. unfold bind at 1, lift at 1. cbn [cnew recorded_c]. rewrite HC. cbn [rbind].
  do 2 (unfold bind at 1; unfold assign at 1). unfold bind at 1, lift at 1. rewrite HL. unfold assign. rewrite seeds_d, seeds_c. reflexivity.
Qed.
End Prepare.
