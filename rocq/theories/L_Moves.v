(* Movements of particles, coordinate by coordinate (C72). *)
From Coq Require Import Lia Permutation.
From Verif Require Import PyNum PyList PyMon PyRng PyStat L_Num L_List L_Rng M_Matching M_Rule M_Mixing M_Solution S_Solution
  L_Heap L_SafeFit M_GenomeOps L_GenomeOps L_GenomeProps L_Held M_Aco S_Aco L_AcoProps M_Abc M_Swarm S_Swarm L_Swarm L_SwarmProps L_Quantum S_Moves.
From Coq Require Import Lqa.

Implicit Types s : hst plain.
(* ----- the generator ----- *)
Lemma later_0 g : later 0 g = g. Proof. destruct g as [t p]. unfold later. cbn. rewrite Nat.add_0_r. reflexivity. Qed.
Lemma later_later a b g : later a (later b g) = later (b + a) g.
Proof. unfold later. cbn [tape pos]. f_equal. lia. Qed.
Lemma number_later k g i : number (later k g) i = number g (k + i).
Proof. unfold number, later. cbn [tape pos]. rewrite Nat.add_assoc. reflexivity. Qed.
Lemma later_tape k g : tape (later k g) = tape g. Proof. reflexivity. Qed.
Lemma later_pos k g : pos (later k g) = (pos g + k)%nat. Proof. reflexivity. Qed.
Lemma draws_later n : forall g, snd (draws n g) = later n g /\ forall i, (i < n)%nat -> nth_error (fst (draws n g)) i = Some (tape g (pos g + i)).
Proof.
  induction n as [|n IH]; intros g; cbn [draws]; [split; [rewrite later_0; reflexivity|intros; lia]|].
  unfold draw. destruct (IH (mkRng (tape g) (S (pos g)))) as [H1 H2]. destruct (draws n (mkRng (tape g) (S (pos g)))) as [qs g2]. cbn [fst snd] in *. split.
  - rewrite H1. unfold later. cbn [tape pos]. f_equal. lia.
  - intros [|i] Hi; cbn [nth_error]; [f_equal; f_equal; lia|]. rewrite H2 by lia. cbn [tape pos]. f_equal. f_equal. lia.
Qed.
Lemma randoms_later n g : snd (randoms n g) = later n g /\ forall i, (i < n)%nat -> nth_error (fst (randoms n g)) i = Some (number g i).
Proof.
  unfold randoms. destruct (draws_later n g) as [H1 H2]. destruct (draws n g) as [qs g2]. cbn [fst snd] in *. split; auto.
  intros i Hi. rewrite nth_error_map, H2 by auto. reflexivity.
Qed.
Lemma number_range g i : 0 <= number g i < 1. Proof. apply u01_range. Qed.
Lemma draw_list n s : rnd1 (randoms n) s = (Ok (fst (randoms n (hrng s))), with_r s (later n (hrng s))).
Proof. rewrite rnd1_eq. rewrite (proj1 (randoms_later n (hrng s))). reflexivity. Qed.
Lemma draw_tape n s : rnd1 (draws n) s = (Ok (fst (draws n (hrng s))), with_r s (later n (hrng s))).
Proof. rewrite rnd1_eq. rewrite (proj1 (draws_later n (hrng s))). reflexivity. Qed.

(* ----- cutting off ----- *)
Lemma nclip_limited lo hi z : lo <= hi -> exists w, nclip (Fin lo) (Fin hi) (Fin z) = Fin w /\ limited lo hi z w /\ lo <= w <= hi.
Proof.
  intros H. unfold nclip, limited. cbn [nlt]. destruct (qlt_spec z lo); cbn [nlt].
  - destruct (qlt_spec hi lo); [lra|]. exists lo. repeat split; intros; try lra.
  - destruct (qlt_spec hi z); [exists hi|exists z]; repeat split; intros; try lra.
Qed.
Lemma limited_compat lo hi z z' w : z == z' -> limited lo hi z w -> limited lo hi z' w.
Proof. intros E (H1 & H2 & H3). repeat split; intros; [apply H1|rewrite H2|apply H3]; lra. Qed.
Lemma shows_rebound s r bits0 a x bits r' b y : wf s -> vw s r = Some (bits0, a, x) -> shows s r' b y ->
  shows (rebound s r bits a x) r' (if Nat.eqb r' r then bits else b) y.
Proof.
  intros W H HS. apply shows_vw in HS as (z & HS). apply shows_vw. rewrite vw_rebound; [|auto|eapply vw_live; eauto].
  destruct (Nat.eqb_spec r' r) as [->|]; [|eauto]. rewrite H in HS. injection HS as -> -> ->. eauto.
Qed.

(* ----- one particle ----- *)
Definition in_box (l : list num) (n : nat) : Prop := length l = n /\ Forall (in_range 0 1) l.
Lemma in_range_at lo hi l i : Forall (in_range lo hi) l -> (i < length l)%nat -> exists q, is_at l i q /\ lo <= q <= hi.
Proof.
  intros HF Hi. apply nth_error_Some in Hi. destruct (nth_error l i) as [x|] eqn:E; [|congruence]. rewrite Forall_forall in HF.
  destruct (HF x (nth_error_In _ _ E)) as (q & -> & Hq). exists q. split; auto.
Qed.
Lemma set_rebound s g p bits b x : wf s -> shows s (p_sol p) b x ->
  exists s', set_genome (p_sol p) bits (with_r s g) = (Ok tt, s') /\ wf s' /\ hrng s' = g /\ shows s' (p_sol p) bits x /\
    forall r b' y, r <> p_sol p -> shows s r b' y -> shows s' r b' y.
Proof.
  intros W HS. pose proof HS as HS0. apply shows_vw in HS as (z & HV).
  assert (HV' : vw (with_r s g) (p_sol p) = Some (b, x, z)) by exact HV.
  exists (rebound (with_r s g) (p_sol p) bits x z). split; [apply (set_genome_eq _ _ _ _ _ _ HV')|]. split; [apply wf_rebound; exact W|]. split; [reflexivity|].
  split.
  - pose proof (shows_rebound (with_r s g) (p_sol p) b x z bits (p_sol p) b x W HV' HS0) as H. rewrite Nat.eqb_refl in H. exact H.
  - intros r b' y NE H. pose proof (shows_rebound (with_r s g) (p_sol p) b x z bits r b' y W HV' H) as H1. apply Nat.eqb_neq in NE. rewrite NE in H1. exact H1.
Qed.
Definition steps (f : particle -> HSt plain particle) (d : nat) (R : rng -> particle -> particle -> list bool -> Prop) (p : particle) : Prop :=
  forall s b x, wf s -> shows s (p_sol p) b x ->
  exists p' bits s', f p s = (Ok p', s') /\ wf s' /\ hrng s' = later d (hrng s) /\ shows s' (p_sol p) bits x /\
    (forall r b' y, r <> p_sol p -> shows s r b' y -> shows s' r b' y) /\ R (hrng s) p p' bits.

Lemma bin_eq M xs s : sigmoid_binarize M xs s =
  (Ok (map2 (fun u x => nle (Fin u) (m_sigmoid M x)) (fst (randoms (length xs) (hrng s))) xs), with_r s (later (length xs) (hrng s))).
Proof. unfold sigmoid_binarize. rewrite (bind_ok _ _ _ _ _ (draw_list (length xs) s)). reflexivity. Qed.

Lemma classic_steps M b c vmax a target n p : 0 <= vmax -> in_box target n -> fits_pool n (MSigmoid b c vmax) p -> tame (MSigmoid b c vmax) p ->
  steps (classic_move M b c vmax (Fin a) target n) (n + n + n) (classical M b c vmax a target n) p.
Proof.
  intros HV [HTl HT] (L1 & L2 & L3) (T1 & T2 & T3) s bts x W HS. unfold classic_move.
  rewrite (bind_ok _ _ _ _ _ (draw_list n s)), (bind_ok _ _ _ _ _ (draw_list n (with_r s (later n (hrng s))))). cbn [with_r hrng]. rewrite later_later. cbv zeta.
  set (u1 := fst (randoms n (hrng s))). set (u2 := fst (randoms n (later n (hrng s)))).
  match goal with |- context[sigmoid_binarize M (map2 _ (p_pos p) ?v)] => set (vel := v) end.
  match goal with |- context[sigmoid_binarize M ?v] => set (ps := v) end.
  assert (HC : forall i, (i < n)%nat -> exists x v t h x' v', is_at (p_pos p) i x /\ is_at (p_vel p) i v /\ is_at (p_bestpos p) i t /\ is_at target i h /\
      is_at vel i v' /\ is_at ps i x' /\ limited (- vmax) vmax (a * v + b * number (hrng s) i * (t - x) + c * number (hrng s) (n + i) * (h - x)) v' /\ limited 0 1 (x + v') x').
  { intros i Hi. destruct (in_range_at 0 1 (p_pos p) i T1) as (q & Q1 & _); [lia|]. destruct (in_range_at _ _ (p_vel p) i T3) as (v & Q2 & _); [lia|].
    destruct (in_range_at 0 1 (p_bestpos p) i T2) as (t & Q3 & _); [lia|]. destruct (in_range_at 0 1 target i HT) as (h & Q4 & _); [lia|].
    pose proof (proj2 (randoms_later n (hrng s)) i Hi) as U1. pose proof (proj2 (randoms_later n (later n (hrng s))) i Hi) as U2. rewrite number_later in U2.
    destruct (nclip_limited (- vmax) vmax (a * v + b * number (hrng s) i * (t - q) + c * number (hrng s) (n + i) * (h - q))) as (v' & C1 & C2 & C3); [lra|].
    destruct (nclip_limited 0 1 (q + v')) as (x' & C4 & C5 & C6); [lra|].
    exists q, v, t, h, x', v'.
    assert (HVel : is_at vel i v').
    { unfold is_at, vel. rewrite (map2_nth _ _ _ _ _ _ Q2 (combine_nth2 _ _ _ _ _ (map2_nth _ _ _ _ _ _ U1 (combine_nth2 _ _ _ _ _ Q3 Q1)) (map2_nth _ _ _ _ _ _ U2 (combine_nth2 _ _ _ _ _ Q4 Q1)))).
      cbn [fst snd nsub nadd nmul]. f_equal. rewrite <- C1. reflexivity. }
    assert (HP : is_at ps i x'). { unfold is_at, ps. rewrite (map2_nth _ _ _ _ _ _ Q1 HVel). cbn [nadd]. f_equal. exact C4. }
    repeat (split; [assumption|]). assumption. }
  assert (Lu1 : length u1 = n) by apply randoms_length. assert (Lu2 : length u2 = n) by apply randoms_length.
  assert (Lv : length vel = n). { unfold vel. apply map2_len; auto. rewrite combine_length, (map2_len _ _ _ n), (map2_len _ _ _ n); auto; rewrite ?combine_length; lia. }
  assert (Lp : length ps = n) by (unfold ps; apply map2_len; auto).
  rewrite (bind_ok _ _ _ _ _ (bin_eq M ps _)). cbn [with_r hrng]. rewrite Lp, later_later.
  set (bits := map2 _ _ ps).
  match goal with |- context[bind (set_genome (p_sol p) bits) _ ?z] => change z with (with_r s (later (n + n + n) (hrng s))) end.
  destruct (set_rebound s (later (n + n + n) (hrng s)) p bits bts x W HS) as (s' & E1 & W' & R' & S1 & S2).
  exists (mkPart (p_sol p) (p_best p) ps (p_bestpos p) vel), bits, s'. rewrite (bind_ok _ _ _ _ _ E1).
  split; [reflexivity|]. split; [exact W'|]. split; [exact R'|]. split; [exact S1|]. split; [exact S2|].
  unfold classical. cbn [p_sol p_best p_bestpos p_pos p_vel]. do 3 (split; [reflexivity|]). split; [exact Lp|]. split; [exact Lv|].
  split; [unfold bits; apply map2_len; auto; apply randoms_length|].
  intros i Hi. destruct (HC i Hi) as (q & v & t & h & x' & v' & D1 & D2 & D3 & D4 & D5 & D6 & D7 & D8).
  exists q, v, t, h, x', v', (nle (Fin (number (hrng s) (n + n + i))) (m_sigmoid M (Fin x'))). do 6 (split; [assumption|]).
  split; [|split; [assumption|split; [assumption|reflexivity]]].
  unfold bits. pose proof (proj2 (randoms_later n (later (n + n) (hrng s))) i Hi) as U3. rewrite number_later in U3. rewrite (map2_nth _ _ _ _ _ _ U3 D6). reflexivity.
Qed.

(* ----- all particles ----- *)
Lemma mmap_steps f d R : forall ps s, Forall (steps f d R) ps -> NoDup (map p_sol ps) -> wf s -> Forall (fun p => exists b x, shows s (p_sol p) b x) ps ->
  exists ps' s', mmap f ps s = (Ok ps', s') /\ wf s' /\ length ps' = length ps /\
    (forall r b y, ~ In r (map p_sol ps) -> shows s r b y -> shows s' r b y) /\
    forall k p, nth_error ps k = Some p -> exists p' bits, nth_error ps' k = Some p' /\ R (later (d * k) (hrng s)) p p' bits /\
      forall b x, shows s (p_sol p) b x -> shows s' (p_sol p) bits x.
Proof.
  induction ps as [|p ps IH]; intros s HF ND W HS.
  - exists [], s. split; [reflexivity|]. split; [exact W|]. split; [reflexivity|]. split; [auto|]. intros [|k] q H; discriminate H.
  - apply Forall_cons_iff in HF as [HF1 HF]. cbn [map] in ND. apply NoDup_cons_iff in ND as [N1 ND]. apply Forall_cons_iff in HS as [(b & x & HS1) HS].
    destruct (HF1 s b x W HS1) as (p' & bits & s1 & E1 & W1 & R1 & S1 & S2 & HR).
    destruct (IH s1 HF ND W1) as (ps' & s' & E2 & W2 & L2 & O2 & H2).
    { rewrite Forall_forall in HS |- *. intros q Hq. destruct (HS q Hq) as (b' & x' & H). exists b', x'. apply S2; auto. intros E. apply N1. rewrite <- E. apply in_map; auto. }
    exists (p' :: ps'), s'. cbn [mmap]. rewrite (bind_ok _ _ _ _ _ E1), (bind_ok _ _ _ _ _ E2). split; [reflexivity|]. split; [exact W2|]. split; [cbn; lia|]. split.
    + intros r b' y Hr H. cbn [map In] in Hr. apply O2; [tauto|]. apply S2; auto.
    + intros [|k] q Hk; cbn [nth_error] in Hk |- *.
      * injection Hk as <-. exists p', bits. split; [reflexivity|]. rewrite Nat.mul_0_r, later_0. split; [exact HR|].
        intros b' x' H. destruct (shows_det _ _ _ _ _ _ HS1 H) as [_ ->]. apply O2; auto.
      * destruct (H2 k q Hk) as (q' & bs & G1 & G2 & G3). exists q', bs. split; [exact G1|]. rewrite R1, later_later in G2. split.
        { replace (d * S k)%nat with (d + d * k)%nat by lia. exact G2. }
        intros b' x' H. apply (G3 b'). apply S2; auto. intros E. apply N1. rewrite <- E. apply in_map. eapply nth_error_In; eauto.
Qed.
Lemma best_leads ps s : ps <> [] -> Forall (fun p => rated s (p_sol p)) ps -> exists p, best_by p_sol ps s = (Ok p, s) /\ leads s p ps.
Proof.
  intros NE HR.
  assert (HK : exists ks, mmap (fun p => let* f := fitness (p_sol p) in ret (f, p)) ps s = (Ok ks, s) /\ map snd ks = ps /\
      Forall (fun k => has_fit s (p_sol (snd k)) (fst k) /\ is_nan (fst k) = false) ks).
  { clear NE. induction HR as [|p ps (f & (bits & a & HS & ->) & HN) _ (ks & E & M & F)]; [exists []; cbn; auto|].
    pose proof HS as HS0. apply shows_vw in HS as (z & HV). exists ((sfitness a, p) :: ks). cbn [mmap].
    assert (E1 : (let* f := fitness (p_sol p) in ret (f, p)) s = (Ok (sfitness a, p), s)) by (rewrite (bind_ok _ _ _ _ _ (fitness_eq _ _ _ _ _ HV)); reflexivity).
    rewrite (bind_ok _ _ _ _ _ E1), (bind_ok _ _ _ _ _ E). split; [reflexivity|]. split; [cbn; congruence|]. constructor; auto. cbn. split; auto. exists bits, a; auto. }
  destruct HK as (ks & E & HM & HF). assert (NK : ks <> []) by (intros ->; apply NE; rewrite <- HM; reflexivity).
  destruct (pymax_some (fun a b : num * particle => nlt (fst a) (fst b)) ks NK) as (k & Hk). exists (snd k). unfold best_by. rewrite (bind_ok _ _ _ _ _ E).
  unfold bind, lift. rewrite Hk. split; [reflexivity|]. pose proof (pymax_In _ _ _ Hk) as HIn. split; [rewrite <- HM; apply in_map; auto|].
  rewrite Forall_forall in HF. exists (fst k). split; [apply HF; auto|]. intros q fq Hq Hf. rewrite <- HM in Hq. apply in_map_iff in Hq as (kq & <- & Hq).
  rewrite (has_fit_fun _ _ _ _ Hf (proj1 (HF kq Hq))).
  apply (pymax_ge (fun a : num * particle => fst a) ks k); auto. apply Forall_forall. intros z Hz. apply HF; auto.
Qed.
Lemma first_ok ps s : ps <> [] -> exists p0, first_particle ps s = (Ok p0, s) /\ In p0 ps.
Proof. destruct ps as [|p ps]; [congruence|]. intros _. exists p. split; [reflexivity|left; auto]. Qed.
Lemma rated_shows s r : rated s r -> exists b x, shows s r b x.
Proof. intros (f & (b & a & H & _) & _). eauto. Qed.

Lemma classical_moves M b c vmax a ps n s : 0 <= vmax -> wf s -> ps <> [] -> NoDup (map p_sol ps) ->
  Forall (fun p => fits_pool n (MSigmoid b c vmax) p /\ tame (MSigmoid b c vmax) p /\ rated s (p_sol p)) ps ->
  exists best ps' s', move M (MSigmoid b c vmax) (Fin a) ps s = (Ok ps', s') /\ leads s best ps /\ wf s' /\ length ps' = length ps /\
    (forall r bits x, ~ In r (map p_sol ps) -> shows s r bits x -> shows s' r bits x) /\
    forall k p, nth_error ps k = Some p -> exists p' bits, nth_error ps' k = Some p' /\
      classical M b c vmax a (p_pos best) n (later ((n + n + n) * k) (hrng s)) p p' bits /\
      forall old x, shows s (p_sol p) old x -> shows s' (p_sol p) bits x.
Proof.
  intros HV W NE ND HF. assert (HR : Forall (fun p => rated s (p_sol p)) ps) by (revert HF; apply Forall_impl; intros p H; apply H).
  destruct (best_leads ps s NE HR) as (g & Eg & Hg). destruct (first_ok ps s NE) as (p0 & E0 & H0). cbn [move]. rewrite (bind_ok _ _ _ _ _ Eg), (bind_ok _ _ _ _ _ E0).
  rewrite Forall_forall in HF. assert (Ln : length (p_pos p0) = n) by (apply (HF p0 H0)). rewrite Ln.
  assert (HB : in_box (p_pos g) n). { destruct (HF g (proj1 Hg)) as ((G1 & _) & (G2 & _) & _). split; auto. }
  destruct (mmap_steps (classic_move M b c vmax (Fin a) (p_pos g) n) (n + n + n) (classical M b c vmax a (p_pos g) n) ps s) as (ps' & s' & H1 & H2 & H3 & H4 & H5); auto.
  { apply Forall_forall. intros p Hp. destruct (HF p Hp) as (G1 & G2 & _). apply classic_steps; auto. }
  { revert HR. apply Forall_impl. intros p. apply rated_shows. }
  exists g, ps', s'. auto 8.
Qed.
