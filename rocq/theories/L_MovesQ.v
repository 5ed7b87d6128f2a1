(* The quantum movement, coordinate by coordinate (C72). *)
From Coq Require Import Lia Permutation.
From Verif Require Import PyNum PyList PyMon PyRng PyStat L_Num L_List L_Rng M_Matching M_Rule M_Mixing M_Solution S_Solution
  L_Heap L_SafeFit M_GenomeOps L_GenomeOps L_GenomeProps L_Held M_Aco S_Aco L_AcoProps M_Abc M_Swarm S_Swarm L_Swarm L_SwarmProps L_Quantum S_Moves L_Moves.
From Coq Require Import Lqa.

Implicit Types s : hst plain.
Lemma coin_sign g : exists sign, choice1 [-(1); 1] g = (Ok sign, later 1 g) /\
  (index_of 2 (tape g (pos g)) = 0%nat /\ sign = -(1) \/ index_of 2 (tape g (pos g)) = 1%nat /\ sign = 1).
Proof.
  pose proof (index_of_lt 2 (tape g (pos g)) ltac:(lia)) as H. unfold choice1, draw. cbn [length].
  assert (E : later 1 g = mkRng (tape g) (S (pos g))) by (unfold later; f_equal; lia). rewrite E.
  destruct (index_of 2 (tape g (pos g))) as [|[|k]]; [| |lia]; (eexists; split; [reflexivity|]); [left|right]; auto.
Qed.
Lemma inverse_ge u : 0 <= u < 1 -> ~ u == 0 -> 1 <= 1 / u.
Proof. intros H N. apply Qle_shift_div_l; lra. Qed.
Lemma quantum_steps M a target mean means n p : log_finite M -> in_box target n -> length means = n -> (forall i, (i < n)%nat -> exists m, is_at means i m /\ m == mean i) ->
  in_box (p_pos p) n ->
  steps (quantum_move M (Fin a) target means n) (n + n + 1 + n) (quantum M a target mean n) p.
Proof.
  intros HM [HTl HT] LM HMean [L1 T1] s bts x W HS. unfold quantum_move.
  rewrite (bind_ok _ _ _ _ _ (draw_list n s)), (bind_ok _ _ _ _ _ (draw_list n (with_r s (later n (hrng s))))). cbn [with_r hrng]. rewrite later_later.
  destruct (coin_sign (later (n + n) (hrng s))) as (sign & ES & HSg).
  assert (ER : rnd (choice1 [-(1); 1]) (with_r s (later (n + n) (hrng s))) = (Ok sign, with_r s (later (n + n + 1) (hrng s)))).
  { unfold rnd. cbn [with_r hrng]. rewrite ES, later_later. reflexivity. }
  match goal with |- context[bind (rnd (choice1 [-(1); 1])) _ ?z] => change z with (with_r s (later (n + n) (hrng s))) end.
  rewrite (bind_ok _ _ _ _ _ ER). cbv zeta.
  match goal with |- context[sigmoid_binarize M (map2 _ ?v ?w)] => set (mg := v); set (mm := w) end.
  match goal with |- context[sigmoid_binarize M ?v] => set (ps := v) end.
  set (g := hrng s) in *.
  assert (Lmg : length mg = n). { unfold mg. apply map2_len; [apply randoms_length|]. rewrite combine_length. lia. }
  assert (Lmm : length mm = n). { unfold mm. apply map2_len; [apply randoms_length|]. rewrite combine_length. lia. }
  assert (Lp : length ps = n) by (unfold ps; apply map2_len; auto).
  assert (HC : forall i, (i < n)%nat -> ~ number g (n + i) == 0 -> exists x h l x', is_at (p_pos p) i x /\ is_at target i h /\ is_at ps i x' /\
      m_log M (Fin (1 / number g (n + i))) = Fin l /\ limited 0 1 ((if qle (number g i) (1 # 2) then x else h) + sign * (a * Qabs (mean i - x) * l)) x').
  { intros i Hi NZ. destruct (in_range_at 0 1 (p_pos p) i T1) as (q & Q1 & _); [lia|]. destruct (in_range_at 0 1 target i HT) as (h & Q4 & _); [lia|].
    destruct (HMean i Hi) as (m & Q5 & Em). destruct (HM (1 / number g (n + i))) as (l & Hl); [apply inverse_ge; [apply number_range|auto]|].
    pose proof (proj2 (randoms_later n g) i Hi) as U1. pose proof (proj2 (randoms_later n (later n g)) i Hi) as U2. rewrite number_later in U2.
    pose proof (map2_nth (fun u xg => let l := bitq (qle u (1#2)) in nadd (nmul (Fin l) (fst xg)) (nmul (Fin (1 - l)) (snd xg))) _ _ _ _ _ U1 (combine_nth2 _ _ _ _ _ Q1 Q4)) as G1. cbv zeta in G1. fold mg in G1. cbn [fst snd nmul nadd] in G1.
    pose proof (map2_nth (fun u mx => nmul (nmul (Fin a) (nabs (nsub (fst mx) (snd mx)))) (m_log M (ndiv (Fin 1) (Fin u)))) _ _ _ _ _ U2 (combine_nth2 _ _ _ _ _ Q5 Q1)) as G2. fold mm in G2. cbn [fst snd nmul ndiv] in G2; change (nabs (nsub (Fin m) (Fin q))) with (Fin (Qabs (m - q))) in G2.
    assert (EQ : qeq (number g (n + i)) 0 = false) by (apply qeq_false; exact NZ). rewrite ?EQ in G2. rewrite Hl in G2. cbn [nmul] in G2.
    match type of G1 with _ = Some (Fin ?z) => set (A := z) in G1 end. match type of G2 with _ = Some (Fin ?z) => set (B := z) in G2 end.
    destruct (nclip_limited 0 1 (A + B * sign)) as (x' & C1 & C2 & C3); [lra|].
    exists q, h, l, x'. do 2 (split; [assumption|]). split; [|split; [assumption|]].
    - unfold is_at, ps. rewrite (map2_nth _ _ _ _ _ _ G1 G2). cbn [nmul nadd]. f_equal. exact C1.
    - eapply limited_compat; [|exact C2]. unfold A, B. rewrite Em. destruct (qle (number g i) (1 # 2)); cbn [bitq]; ring. }
  rewrite (bind_ok _ _ _ _ _ (bin_eq M ps _)). cbn [with_r hrng]. rewrite Lp, later_later.
  set (bits := map2 _ _ ps).
  match goal with |- context[bind (set_genome (p_sol p) bits) _ ?z] => change z with (with_r s (later (n + n + 1 + n) g)) end.
  destruct (set_rebound s (later (n + n + 1 + n) g) p bits bts x W HS) as (s' & E1 & W' & R' & S1 & S2).
  exists (mkPart (p_sol p) (p_best p) ps (p_bestpos p) []), bits, s'. rewrite (bind_ok _ _ _ _ _ E1).
  split; [reflexivity|]. split; [exact W'|]. split; [exact R'|]. split; [exact S1|]. split; [exact S2|].
  unfold quantum. cbn [p_sol p_best p_bestpos p_pos p_vel]. do 3 (split; [reflexivity|]). split; [exact Lp|].
  split; [unfold bits; apply map2_len; auto; apply randoms_length|]. exists sign. split; [exact HSg|].
  intros i Hi NZ. destruct (HC i Hi NZ) as (q & h & l & x' & D1 & D2 & D3 & D4 & D5).
  exists q, h, l, x', (nle (Fin (number g (n + n + 1 + i))) (m_sigmoid M (Fin x'))). do 3 (split; [assumption|]).
  split; [|split; [assumption|split; [assumption|reflexivity]]].
  unfold bits. pose proof (proj2 (randoms_later n (later (n + n + 1) g)) i Hi) as U3. rewrite number_later in U3. rewrite (map2_nth _ _ _ _ _ _ U3 D3). reflexivity.
Qed.
Lemma in_box_column ps n i : (i < n)%nat -> Forall (fun p => in_box (p_pos p) n) ps ->
  map (fun r => nth i r NaN) (map p_pos ps) = map Fin (map (fun p => match nth_error (p_pos p) i with Some (Fin q) => q | _ => 0 end) ps).
Proof.
  intros Hi HF. rewrite !map_map. apply map_ext_in. intros p Hp. rewrite Forall_forall in HF. destruct (HF p Hp) as [L T].
  destruct (in_range_at 0 1 (p_pos p) i T) as (q & E & _); [lia|]. unfold is_at in E. rewrite E. apply nth_error_nth. exact E.
Qed.
Lemma quantum_moves M a ps n s : log_finite M -> wf s -> ps <> [] -> NoDup (map p_sol ps) ->
  Forall (fun p => length (p_pos p) = n /\ Forall (in_range 0 1) (p_pos p) /\ rated s (p_sol p)) ps ->
  exists best ps' s', move M MSigmoidQuantum (Fin a) ps s = (Ok ps', s') /\ leads s best ps /\ wf s' /\ length ps' = length ps /\
    (forall r bits x, ~ In r (map p_sol ps) -> shows s r bits x -> shows s' r bits x) /\
    forall k p, nth_error ps k = Some p -> exists p' bits, nth_error ps' k = Some p' /\
      quantum M a (p_pos best) (mean_at ps) n (later ((n + n + 1 + n) * k) (hrng s)) p p' bits /\
      forall old x, shows s (p_sol p) old x -> shows s' (p_sol p) bits x.
Proof.
  intros HM W NE ND HF. assert (HR : Forall (fun p => rated s (p_sol p)) ps) by (revert HF; apply Forall_impl; intros p H; apply H).
  assert (HB : Forall (fun p => in_box (p_pos p) n) ps) by (revert HF; apply Forall_impl; intros p (H1 & H2 & _); split; auto).
  destruct (best_leads ps s NE HR) as (g & Eg & Hg). destruct (first_ok ps s NE) as (p0 & E0 & H0). cbn [move]. rewrite (bind_ok _ _ _ _ _ Eg), (bind_ok _ _ _ _ _ E0). cbv zeta.
  pose proof HB as HB'. rewrite Forall_forall in HB'. rewrite (proj1 (HB' p0 H0)).
  destruct (mmap_steps (quantum_move M (Fin a) (p_pos g) (column_means n (map p_pos ps)) n) (n + n + 1 + n) (quantum M a (p_pos g) (mean_at ps) n) ps s) as (ps' & s' & H1 & H2 & H3 & H4 & H5); auto.
  { apply Forall_forall. intros p Hp. apply quantum_steps; auto; [apply HB', Hg|unfold column_means; rewrite map_length, seq_length; reflexivity|].
    intros i Hi. unfold is_at, column_means. rewrite nth_error_map, (nth_error_nth' _ 0%nat) by (rewrite seq_length; auto). rewrite seq_nth by auto. cbn [option_map plus].
    rewrite (in_box_column ps n i Hi HB). unfold nmean, nlen. destruct (nsum_fin (map (fun p => match nth_error (p_pos p) i with Some (Fin q) => q | _ => 0 end) ps) 0) as (t & Et & Ht).
    unfold nsum. rewrite Et, map_length, map_length. cbn [ndiv]. assert (NZ : qeq (qofnat (length ps)) 0 = false).
    { apply qeq_false. assert (0 < qofnat (length ps)) by (apply qofnat_pos; destruct ps; [congruence|cbn; lia]). lra. }
    rewrite ?NZ. eexists. split; [reflexivity|]. unfold mean_at. rewrite Ht. assert (H9 : forall u v w : Q, u == v -> u / w == v / w) by (intros u v w E9; rewrite E9; reflexivity). apply H9. ring. }
  { revert HR. apply Forall_impl. intros p. apply rated_shows. }
  exists g, ps', s'. auto 8.
Qed.
