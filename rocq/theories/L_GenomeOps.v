(* The operators on genomes: they only add objects. *)
From Coq Require Import Lia Permutation.
From Verif Require Import PyNum PyList PyMon PyRng PyStat L_Num L_List L_Rng M_Matching M_Rule M_Mixing L_Mixing M_Solution S_Solution
  L_Heap L_HeapProps M_Composition L_Safe L_SafeFit M_GenomeOps S_GenomeOps.

Section More.
Context {K : skind}.
Implicit Types s : hst K.

(* s' has the objects of s unchanged, and possibly more *)
Definition more s s' : Prop :=
  wf s' /\ (length (sols s) <= length (sols s'))%nat /\ forall r, live s r -> vw s' r = vw s r.
Lemma more_refl s : wf s -> more s s. Proof. intros W; split; auto. Qed.
Lemma more_live s s' r : more s s' -> live s r -> live s' r.
Proof. intros (_ & H & _). unfold live. lia. Qed.
Lemma more_vw s s' r v : more s s' -> vw s r = Some v -> vw s' r = Some v.
Proof. intros (_ & _ & H) HV. rewrite H; auto. eapply vw_live; eauto. Qed.
Lemma more_trans s1 s2 s3 : more s1 s2 -> more s2 s3 -> more s1 s3.
Proof.
  intros H12 (W3 & L3 & H3). pose proof H12 as (W2 & L2 & H2). split; auto. split; [lia|].
  intros r Hr. rewrite H3; auto. eapply more_live; eauto.
Qed.
Lemma more_push s bits a x : wf s -> more s (push s bits a x).
Proof.
  intros W. split; [apply wf_push; auto|]. split; [simpl; rewrite app_length; lia|].
  intros r Hr. rewrite vw_push; auto. unfold live in Hr. destruct (Nat.eqb_spec r (length (sols s))); [lia|auto].
Qed.
Lemma more_with_r s g : wf s -> more s (with_r s g).
Proof. intros W. split; auto. Qed.
Lemma more_wf s s' : more s s' -> wf s'. Proof. intros H; apply H. Qed.
Lemma more_grow {L} (E : env L) A h s s' : inv A s -> more s s' -> grow E A h s s'.
Proof.
  intros [W HA] (W' & HL & HV). apply grow_weak.
  split; [split; auto; intros r Hr; specialize (HA r Hr); unfold live in *; lia|].
  split; auto. split; [auto|]. split.
  - intros r Hr. pose proof (good_live _ _ _ _ Hr) as Hl. destruct Hr as (HN & b & a & x & HV0 & HL0).
    split; auto. exists b, a, x. rewrite HV; auto.
  - intros _ r Hr. assert (Hl : live s r).
    { destruct Hr as (b & a & g & g' & HS & _). apply shows_vw in HS as (x & HS). eapply vw_live; eauto. }
    assert (HC : core s' r = core s r) by (apply vw_core, HV; auto). split; auto. eapply honest_core; eauto.
Qed.

Lemma rnd_eq {T} (f : rng -> res T * rng) s : rnd f s = (fst (f (hrng s)), with_r s (snd (f (hrng s)))).
Proof. unfold rnd. destruct (f (hrng s)); reflexivity. Qed.
Lemma rnd1_eq {T} (f : rng -> T * rng) s : rnd1 f s = (Ok (fst (f (hrng s))), with_r s (snd (f (hrng s)))).
Proof. unfold rnd1. rewrite rnd_eq. destruct (f (hrng s)); reflexivity. Qed.
End More.

(* ----- crossover ----- *)
Lemma firstn_nth {A} (l : list A) k i : nth_error (firstn k l) i = if Nat.ltb i k then nth_error l i else None.
Proof.
  revert l i. induction k as [|k IH]; intros [|a l] [|i]; simpl; auto.
  - destruct (Nat.ltb _ _); reflexivity.
  - rewrite IH. reflexivity.
Qed.
Lemma skipn_nth {A} (l : list A) k i : nth_error (skipn k l) i = nth_error l (k + i).
Proof. revert l. induction k as [|k IH]; intros [|a l]; simpl; auto. destruct i; auto. Qed.
Lemma cut_at_length m a b : length a = length b -> length (cut_at m a b) = length a.
Proof. intros H. unfold cut_at. rewrite app_length, firstn_length, skipn_length. lia. Qed.
Lemma cut_at_nth m a b i : length a = length b -> (m <= length a)%nat ->
  nth_error (cut_at m a b) i = nth_error (if Nat.ltb i m then a else b) i.
Proof.
  intros H Hm. unfold cut_at. destruct (Nat.ltb_spec i m) as [Hi|Hi].
  - rewrite nth_error_app1 by (rewrite firstn_length; lia). rewrite firstn_nth. destruct (Nat.ltb_spec i m); [auto|lia].
  - rewrite nth_error_app2 by (rewrite firstn_length; lia). rewrite firstn_length, skipn_nth. f_equal. lia.
Qed.
Lemma recombined_refl a b : recombined a b a.
Proof. split; auto. Qed.
Lemma recombined_length a b c : recombined a b c -> length c = length a.
Proof. intros H; apply H. Qed.
Lemma recombined_cut m a b : length a = length b -> (m <= length a)%nat -> recombined a b (cut_at m a b).
Proof.
  intros H Hm. split; [apply cut_at_length; auto|]. intros i x. rewrite cut_at_nth by auto.
  destruct (Nat.ltb i m); auto.
Qed.
Lemma cut_at_cut m k a b : length a = length b -> (m <= length a)%nat -> (k <= length a)%nat ->
  cut_at k (cut_at m a b) b = cut_at (Nat.min k m) a b.
Proof.
  intros H Hm Hk. apply nth_error_ext. intros i. rewrite !cut_at_nth by (rewrite ?cut_at_length by auto; lia).
  destruct (Nat.ltb_spec i k), (Nat.ltb_spec i (Nat.min k m)); try lia; auto.
  - rewrite cut_at_nth by auto. destruct (Nat.ltb_spec i m); auto; lia.
  - rewrite cut_at_nth by auto. destruct (Nat.ltb_spec i m); auto; lia.
Qed.
Lemma cut_at_back m a b : length a = length b -> (m <= length a)%nat -> cut_at m b (cut_at m a b) = b.
Proof.
  intros H Hm. apply nth_error_ext. intros i. rewrite cut_at_nth by (rewrite ?cut_at_length by auto; lia).
  destruct (Nat.ltb_spec i m); auto. rewrite cut_at_nth by auto. destruct (Nat.ltb_spec i m); auto; lia.
Qed.
Lemma mix_bits_length us a b : length us = length a -> length b = length a -> length (mix_bits us a b) = length a.
Proof. intros H1 H2. unfold mix_bits. rewrite map2_length; rewrite ?combine_length; lia. Qed.
Lemma combine_nth_error {A B} (a : list A) (b : list B) i x y : nth_error (combine a b) i = Some (x, y) ->
  nth_error a i = Some x /\ nth_error b i = Some y.
Proof.
  revert b i. induction a as [|u a IH]; intros [|v b] [|i] H; simpl in *; try discriminate.
  - inversion H; auto.
  - apply IH; auto.
Qed.
Lemma mix_bits_nth us a b i x : nth_error (mix_bits us a b) i = Some x ->
  exists u, nth_error us i = Some u /\ nth_error (if qle u (1 # 2) then a else b) i = Some x.
Proof.
  unfold mix_bits. intros H. apply map2_nth_inv in H as (u & [p q] & Hu & Hab & ->). apply combine_nth_error in Hab as [Ha Hb].
  exists u. split; auto. destruct (qle u (1 # 2)); auto.
Qed.
Lemma mix_bits_recombined us a b : length us = length a -> length b = length a -> recombined a b (mix_bits us a b).
Proof.
  intros H1 H2. split; [apply mix_bits_length; auto|]. intros i x H. apply mix_bits_nth in H as (u & _ & H).
  destruct (qle u (1 # 2)); auto.
Qed.

Section Cross.
Context {K : skind}.
Implicit Types s : hst K.

(* what a further-attribute predicate must satisfy to survive cloning *)
Definition copied (P : ext K -> Prop) : Prop := forall x, P x -> P (ext_copy K x).

Lemma single_point_eq s a b i ba aa xa bb ab xb :
  vw s a = Some (ba, aa, xa) -> vw s b = Some (bb, ab, xb) ->
  single_point a b i s = (Ok (length (sols s)), push s (cut_at i ba bb) None (ext_copy K xa)).
Proof.
  intros Ha Hb. unfold single_point. rewrite (bind_ok _ _ _ _ _ (genome_eq _ _ _ _ _ Ha)).
  rewrite (bind_ok _ _ _ _ _ (genome_eq _ _ _ _ _ Hb)). apply (clone_with_eq _ _ _ _ _ _ Ha).
Qed.

Lemma npoint_eq both cuts : forall s a b ba aa xa bb ab xb,
  wf s -> vw s a = Some (ba, aa, xa) -> vw s b = Some (bb, ab, xb) -> length ba = length bb ->
  Forall (fun i => i < length ba)%nat cuts ->
  exists c s' m ac xc, npoint both cuts a b s = (Ok c, s') /\ more s s' /\ hrng s' = hrng s /\
    vw s' c = Some (cut_at m ba bb, ac, xc) /\ (m = fold_right Nat.min (length ba) cuts) /\
    (forall P, copied P -> P xa -> P xc) /\ (c = a /\ cuts = [] \/ ~ live s c).
Proof.
  induction cuts as [|i cuts IH]; intros s a b ba aa xa bb ab xb W Ha Hb HL HC.
  - exists a, s, (length ba), aa, xa. cbn [npoint fold_right]. split; [reflexivity|]. split; [apply more_refl; auto|].
    split; auto. split; [|auto]. rewrite Ha. unfold cut_at. rewrite firstn_all, HL, skipn_all, app_nil_r. reflexivity.
  - pose proof (Forall_inv HC) as Hi. cbv beta in Hi. apply Forall_inv_tail in HC. cbn [npoint].
    pose proof (single_point_eq s a b i _ _ _ _ _ _ Ha Hb) as H1. rewrite (bind_ok _ _ _ _ _ H1).
    set (s1 := push s (cut_at i ba bb) None (ext_copy K xa)) in *.
    assert (W1 : wf s1) by (apply wf_push; auto).
    assert (M1 : more s s1) by (apply more_push; auto).
    assert (Ha1 : vw s1 (length (sols s)) = Some (cut_at i ba bb, None, ext_copy K xa)).
    { unfold s1. rewrite vw_push, Nat.eqb_refl; auto. }
    pose proof (more_vw _ _ _ _ M1 Hb) as Hb1.
    assert (HR : exists b' s2 ab' xb', (if both then single_point b (length (sols s)) i else ret b) s1 = (Ok b', s2) /\
              more s1 s2 /\ hrng s2 = hrng s1 /\ vw s2 b' = Some (bb, ab', xb')).
    { destruct both.
      - rewrite (single_point_eq s1 b (length (sols s)) i _ _ _ _ _ _ Hb1 Ha1). eexists _, _, _, _. split; [reflexivity|].
        split; [apply more_push; auto|]. split; [reflexivity|]. rewrite vw_push, Nat.eqb_refl by auto.
        rewrite cut_at_back by (auto; lia). reflexivity.
      - exists b, s1, ab, xb. split; [reflexivity|]. split; [apply more_refl; auto|]. auto. }
    destruct HR as (b' & s2 & ab' & xb' & HE & M2 & HR2 & Hb2). rewrite (bind_ok _ _ _ _ _ HE).
    pose proof (more_vw _ _ _ _ M2 Ha1) as Ha2.
    assert (HLc : length (cut_at i ba bb) = length ba) by (apply cut_at_length; auto).
    destruct (IH s2 (length (sols s)) b' _ _ _ _ _ _ (more_wf _ _ M2) Ha2 Hb2) as (c & s' & m & ac & xc & HE' & M' & HR' & Hc & Hm & HP & HD).
    { lia. } { rewrite HLc. exact HC. }
    assert (Hmle : (m <= length ba)%nat).
    { rewrite Hm, HLc. clear. induction cuts; simpl in *; lia. }
    exists c, s', (Nat.min i m), ac, xc. split; [exact HE'|].
    split; [eapply more_trans; [exact M1|eapply more_trans; eauto]|].
    split; [rewrite HR', HR2; reflexivity|].
    split. { rewrite Hc. f_equal. f_equal. f_equal. rewrite cut_at_cut by (auto; lia). f_equal. lia. }
    split. { cbn [fold_right]. rewrite Hm, HLc. reflexivity. }
    split. { intros P HPc Hx. apply HP; auto. }
    right. destruct HD as [[-> _]|HD]; [unfold live; lia|]. intros Hl. apply HD.
    eapply more_live; [exact M2|]. eapply more_live; eauto.
Qed.

Lemma in_seq_lt l k : Forall (fun i => In i (seq 0 k)) l -> Forall (fun i => i < k)%nat l.
Proof. apply Forall_impl. intros i H. apply in_seq in H. lia. Qed.
Lemma sample_In {A} (l : list A) k g r g' : sample l k g = (Ok r, g') -> Forall (fun x => In x l) r.
Proof.
  intros H. apply sample_ok in H as (_ & rest & HP). apply Forall_forall. intros x Hx.
  eapply Permutation_in; [symmetry; exact HP|]. apply in_or_app; auto.
Qed.
Lemma sample_total {A} (l : list A) k g : (k <= length l)%nat -> exists r g', sample l k g = (Ok r, g').
Proof.
  intros H. unfold sample. destruct (Nat.ltb_spec (length l) k); [lia|]. destruct (take_out k l g). eauto.
Qed.

Lemma recombine_eq both x s a b ba aa xa bb ab xb :
  wf s -> vw s a = Some (ba, aa, xa) -> vw s b = Some (bb, ab, xb) -> length ba = length bb ->
  exists c s' bits ac xc, recombine both x a b s = (Ok c, s') /\ more s s' /\ vw s' c = Some (bits, ac, xc) /\
    recombined ba bb bits /\ (forall P, copied P -> P xa -> P xc) /\ (c = a \/ ~ live s c) /\
    match x with
    | NPoint k => exists cuts, length cuts = Nat.min k (length ba) /\ NoDup cuts /\
                    Forall (fun i => i < length ba)%nat cuts /\ bits = cut_at (fold_right Nat.min (length ba) cuts) ba bb
    | Uniform => True
    end.
Proof.
  intros W Ha Hb HL. destruct x as [k|]; cbn [recombine]; rewrite (bind_ok _ _ _ _ _ (genome_eq _ _ _ _ _ Ha)).
  - destruct (sample_total (seq 0 (length ba)) (Nat.min k (length ba)) (hrng s)) as (cuts & g & HS).
    { rewrite seq_length. lia. }
    assert (HR : rnd (sample (seq 0 (length ba)) (Nat.min k (length ba))) s = (Ok cuts, with_r s g)).
    { rewrite rnd_eq, HS. reflexivity. }
    rewrite (bind_ok _ _ _ _ _ HR). pose proof (in_seq_lt _ _ (sample_In _ _ _ _ _ HS)) as HC.
    destruct (npoint_eq both cuts (with_r s g) a b _ _ _ _ _ _ (wf_with_r s g W) Ha Hb HL HC)
      as (c & s' & m & ac & xc & HE & M & _ & Hc & Hm & HP & HD).
    exists c, s', (cut_at m ba bb), ac, xc. split; [exact HE|].
    split; [eapply more_trans; [apply more_with_r; auto|exact M]|]. split; [exact Hc|].
    assert (Hmle : (m <= length ba)%nat). { rewrite Hm. clear. induction cuts; simpl in *; lia. }
    split; [apply recombined_cut; auto|]. split; [auto|]. split; [destruct HD as [[H _]|H]; auto|].
    apply sample_ok in HS as [HSl (rest & HSp)].
    exists cuts. split; [auto|]. split; [|split; [auto|rewrite Hm; reflexivity]].
    assert (ND : NoDup (cuts ++ rest)) by (eapply Permutation_NoDup; [exact HSp|apply seq_NoDup]).
    clear - ND. induction cuts as [|c cuts IH]; [constructor|]. inversion ND; subst. constructor; auto.
    intros H; apply H1, in_or_app; auto.
  - pose proof (rnd1_eq (randoms (length ba)) s) as HR. rewrite (bind_ok _ _ _ _ _ HR).
    set (us := fst (randoms (length ba) (hrng s))) in *. set (s1 := with_r s (snd (randoms (length ba) (hrng s)))) in *.
    assert (Hb1 : vw s1 b = Some (bb, ab, xb)) by exact Hb. assert (Ha1 : vw s1 a = Some (ba, aa, xa)) by exact Ha.
    rewrite (bind_ok _ _ _ _ _ (genome_eq _ _ _ _ _ Hb1)). rewrite <- HL, Nat.eqb_refl.
    rewrite (clone_with_eq _ _ _ _ _ _ Ha1). eexists _, _, _, _, _. split; [reflexivity|].
    split; [eapply more_trans; [apply more_with_r; exact W|apply more_push; exact W]|].
    rewrite vw_push, Nat.eqb_refl by exact W. split; [reflexivity|].
    split; [apply mix_bits_recombined; auto; unfold us; apply randoms_length|].
    split; [intros P HP Hx; apply HP; exact Hx|]. split; [right; unfold live; simpl; lia|exact I].
Qed.

Lemma crossover_eq both x rate s a b ba aa xa bb ab xb :
  wf s -> vw s a = Some (ba, aa, xa) -> vw s b = Some (bb, ab, xb) -> length ba = length bb ->
  exists c s' bits ac xc, crossover both x rate a b s = (Ok c, s') /\ more s s' /\ vw s' c = Some (bits, ac, xc) /\
    recombined ba bb bits /\ (forall P, copied P -> P xa -> P xc) /\ (c = a \/ ~ live s c) /\
    ((c = a /\ s' = with_r s (snd (random (hrng s)))) \/
     exists s1, s1 = with_r s (snd (random (hrng s))) /\ recombine both x a b s1 = (Ok c, s')).
Proof.
  intros W Ha Hb HL. unfold crossover. pose proof (rnd1_eq random s) as HR. rewrite (bind_ok _ _ _ _ _ HR).
  set (s1 := with_r s (snd (random (hrng s)))) in *.
  destruct (nlt _ rate).
  - destruct (recombine_eq both x s1 a b ba aa xa bb ab xb W Ha Hb HL) as (c & s' & bits & ac & xc & HE & M & Hc & HRec & HP & HD & _).
    exists c, s', bits, ac, xc. split; [exact HE|]. split; [eapply more_trans; [apply more_with_r; exact W|exact M]|].
    split; [auto|]. split; [auto|]. split; [auto|]. split; [exact HD|]. right. exists s1. split; auto.
  - exists a, s1, ba, aa, xa. split; [reflexivity|]. split; [apply more_with_r; auto|]. split; [exact Ha|].
    split; [apply recombined_refl|]. split; [auto|]. split; [auto|]. left; split; reflexivity.
Qed.

Lemma flip_bits_length rate us bits : length us = length bits -> length (flip_bits rate us bits) = length bits.
Proof. intros H. unfold flip_bits. rewrite map2_length; auto. Qed.
Lemma bit_flips_eq rate s r bits a x : wf s -> vw s r = Some (bits, a, x) ->
  let us := fst (randoms (length bits) (hrng s)) in
  let s1 := with_r s (snd (randoms (length bits) (hrng s))) in
  bit_flips rate r s = (Ok (length (sols s)), push s1 (flip_bits rate us bits) None (ext_copy K x)).
Proof.
  intros W HV us s1. unfold bit_flips. rewrite (bind_ok _ _ _ _ _ (genome_eq _ _ _ _ _ HV)).
  pose proof (rnd1_eq (randoms (length bits)) s) as HR. rewrite (bind_ok _ _ _ _ _ HR). fold us s1.
  assert (HV1 : vw s1 r = Some (bits, a, x)) by exact HV.
  rewrite (clone_with_eq _ _ _ _ _ _ HV1). reflexivity.
Qed.
Lemma flip_bits_spec rate us bits : length us = length bits -> flipped rate us bits (flip_bits (Fin rate) us bits).
Proof.
  intros H. split; [apply flip_bits_length; auto|]. split; auto. intros i x y u Hx Hy Hu.
  unfold flip_bits in Hy. rewrite (map2_nth _ _ _ _ _ _ Hu Hx) in Hy. inversion Hy; subst. cbn [nlt].
  split; intros Hc.
  - assert (qlt u rate = true) by (apply qlt_iff; exact Hc). rewrite H0. destruct x; reflexivity.
  - destruct (qlt u rate) eqn:E; [apply qlt_iff in E; exfalso; apply (Qlt_irrefl u); eapply Qlt_le_trans; eauto|].
    destruct x; reflexivity.
Qed.
End Cross.

(* ----- safety ----- *)
Section Safe.
Context {K : skind} {L : learner}.
Variable E : env L.
Variable A : nat -> Prop.
Implicit Types s : hst K.
Let n := length (epool E).
Local Notation safe := (safe E A).
Local Notation good := (good E A).
Local Notation inv := (inv A).

Lemma safe_crossover h both x rate s a b : inv s -> good s a -> good s b ->
  safe h (crossover both x rate a b) (fun c s' => good s' c /\ (c = a \/ ~ live s c)) s.
Proof.
  intros I HA HB. pose proof HA as (HNa & ba & aa & xa & Ha & HLa). pose proof HB as (HNb & bb & ab & xb & Hb & HLb).
  destruct (crossover_eq both x rate s a b ba aa xa bb ab xb (proj1 I) Ha Hb) as (c & s' & bits & ac & xc & HE & M & Hc & HR & HP & HD & _).
  { lia. }
  unfold L_Safe.safe. rewrite HE. split; [apply more_grow; auto|]. split; [|exact HD]. split.
  - destruct HD as [->|HD]; [exact HNa|]. intros HAc. apply HD. apply I; auto.
  - exists bits, ac, xc. split; auto. rewrite (recombined_length _ _ _ HR). exact HLa.
Qed.
Lemma safe_bit_flips h rate s r : inv s -> good s r ->
  safe h (bit_flips rate r) (fun c s' => good s' c /\ ~ live s c /\ forall x, has_ext s r x -> has_ext s' c (ext_copy K x)) s.
Proof.
  intros I HG. pose proof HG as (HN & bits & a & x & HV & HL). unfold L_Safe.safe.
  rewrite (bit_flips_eq rate s r bits a x (proj1 I) HV). cbv zeta.
  set (us := fst (randoms (length bits) (hrng s))). set (s1 := with_r s (snd (randoms (length bits) (hrng s)))).
  assert (M : more s (push s1 (flip_bits rate us bits) None (ext_copy K x))).
  { eapply more_trans; [apply more_with_r; apply I|apply more_push; apply I]. }
  split; [apply more_grow; auto|].
  assert (HNl : ~ live s (length (sols s))) by (unfold live; lia).
  split; [split|split].
  - intros HA'. apply HNl. apply I; auto.
  - exists (flip_bits rate us bits), None, (ext_copy K x). split.
    + rewrite vw_push by apply I. change (length (sols s1)) with (length (sols s)). rewrite Nat.eqb_refl. reflexivity.
    + rewrite flip_bits_length; [auto|]. apply randoms_length.
  - exact HNl.
  - intros x' (o & H1 & H2). apply vw_inv in HV as (o' & H1' & _ & _ & H2'). assert (o' = o) by congruence. subst o'.
    eexists. split; [simpl; rewrite nth_error_snoc, Nat.eqb_refl; reflexivity|]. simpl. congruence.
Qed.

Lemma Forall_In {T} (P : T -> Prop) l x : Forall P l -> In x l -> P x.
Proof. rewrite Forall_forall. auto. Qed.
Lemma Forall_incl {T} (P : T -> Prop) l m : Forall P l -> Forall (fun x => In x l) m -> Forall P m.
Proof. intros H. apply Forall_impl. intros x. apply Forall_In; auto. Qed.
Lemma notbad_value : ~ bad ValueError. Proof. intros [H|H]; discriminate. Qed.
Lemma notbad_index : ~ bad IndexError. Proof. intros [H|H]; discriminate. Qed.

Lemma safe_choices h (l : list nat) k s : inv s ->
  safe h (rnd (choices l k)) (fun r _ => length r = k /\ Forall (fun x => In x l) r) s.
Proof.
  intros I. apply safe_rnd; auto. destruct (choices l k (hrng s)) as [[r|e] g] eqn:HE; cbn [fst].
  - apply choices_ok in HE; auto.
  - unfold choices in HE. destruct l.
    + destruct (Nat.eqb k 0); inversion HE; apply notbad_value.
    + destruct (draws k (hrng s)); discriminate.
Qed.
Lemma safe_choices_p h (l : list nat) k w s : inv s ->
  safe h (rnd (choices_p l k w)) (fun r _ => length r = k /\ Forall (fun x => In x l) r) s.
Proof.
  intros I. apply safe_rnd; auto. destruct (choices_p l k w (hrng s)) as [[r|e] g] eqn:HE; cbn [fst].
  - apply choices_p_ok in HE as (H1 & _ & _ & _ & H2). split; auto. eapply Forall_impl; [|exact H2].
    intros x (i & p & Hi & _). eapply nth_error_In; eauto.
  - unfold choices_p in HE. destruct (_ || _); [inversion HE; apply notbad_value|].
    destruct l; [inversion HE; apply notbad_value|]. destruct (draws k (hrng s)); discriminate.
Qed.
Lemma safe_choices_num h (l : list nat) k w s : inv s ->
  safe h (rnd (choices_num l k w)) (fun r _ => length r = k /\ Forall (fun x => In x l) r) s.
Proof.
  intros I. unfold choices_num. destruct (finites w) as [qs|] eqn:HF.
  - apply safe_choices_p; auto.
  - apply (safe_rnd E A h (fun g => (Raise ValueError, g)) (fun r => length r = k /\ Forall (fun x => In x l) r)); auto.
    apply notbad_value.
Qed.

Lemma safe_select h k pop m s : inv s -> Forall (good s) pop ->
  safe h (select k pop m) (fun r s' => length r = m /\ Forall (fun x => In x pop) r) s.
Proof.
  intros I HG. destruct k as [| | |k]; cbn [select].
  - apply safe_choices; auto.
  - eapply safe_bind; [apply safe_fitnesses; auto|]. intros fs s' G (-> & HF). cbv beta.
    destruct (roulette_weights fs); [apply safe_choices_num|apply safe_choices]; auto.
  - eapply safe_bind; [apply safe_fitnesses; auto|]. intros fs s' G (-> & HF). cbv beta. apply safe_choices_p; auto.
  - eapply safe_post.
    + apply (safe_mmap E A h (fun _ : nat => let* drawn := rnd (choices pop k) in fittest drawn)
               (fun _ r _ => In r pop) (seq 0 m) s I); [auto|].
      intros x s' _ G. eapply safe_bind; [apply safe_choices; apply (grow_inv _ _ _ _ _ G)|].
      intros drawn s1 G1 [_ HD]. cbv beta. eapply safe_post; [apply safe_fittest; [apply (grow_inv _ _ _ _ _ G1)|]|].
      * eapply Forall_impl; [|exact HD]. intros r Hr. apply (grow_good _ _ _ _ _ _ G1), (grow_good _ _ _ _ _ _ G).
        eapply Forall_In; eauto.
      * intros r s2 _ (_ & Hr & _). exact (Forall_In _ _ _ HD Hr).
    + intros r s' G HF. cbv beta in *. split; [apply Forall2_len in HF; rewrite seq_length in HF; auto|].
      clear - HF. induction HF; constructor; auto.
Qed.

Lemma pairs_In {T} (l : list T) a b : In (a, b) (pairs l) -> In a l /\ In b l.
Proof.
  enough (H : forall k l, (length l <= k)%nat -> In (a, b) (pairs l) -> In a l /\ In b l) by (apply (H (length l)); auto).
  induction k as [|k IH]; intros [|x [|y l']] HL; simpl in *; try tauto; try lia.
  intros [H|H]; [inversion H; subst; auto|]. destruct (IH l') as [H1 H2]; [lia|auto|auto].
Qed.
Lemma pairs_length {T} (l : list T) : length (pairs l) = (length l / 2)%nat.
Proof.
  enough (H : forall k (l : list T), (length l <= k)%nat -> length (pairs l) = (length l / 2)%nat) by (apply (H (length l)); auto).
  clear l. induction k as [|k IH]; intros [|x [|y l]] HL; try (simpl in *; lia); try reflexivity.
  cbn [pairs length]. rewrite IH by (simpl in *; lia).
  change (S (S (length l))) with (1 * 2 + length l)%nat. rewrite Nat.div_add_l by lia. reflexivity.
Qed.

(* children are good, and each is new or one of the parents *)
Lemma safe_offspring h cross parents s : inv s -> Forall (good s) parents ->
  (forall a b s', grow E A h s s' -> In a parents -> In b parents ->
     safe h (cross a b) (fun c s1 => good s1 c /\ (c = a \/ ~ live s' c)) s') ->
  safe h (offspring cross parents) (fun cs s' => length cs = (2 * (length parents / 2))%nat /\
     Forall (fun c => good s' c /\ (In c parents \/ ~ live s c)) cs) s.
Proof.
  intros I HG HC. unfold offspring.
  eapply safe_bind.
  - apply (safe_mmap E A h _ (fun _ cs s' => length cs = 2%nat /\ Forall (fun c => good s' c /\ (In c parents \/ ~ live s c)) cs) (pairs parents) s I).
    + intros x cs s1 s2 G [H1 H2]. split; auto. eapply Forall_impl; [|exact H2]. intros c [Hc Hd]. split; auto.
      eapply grow_good; eauto.
    + intros [a b] s1 Hab G1. cbn [fst snd]. destruct (pairs_In _ _ _ Hab) as [Ha Hb].
      assert (HNL : forall s' c, grow E A h s s' -> ~ live s' c -> ~ live s c).
      { intros s' c G Hc Hl. apply Hc. unfold live in *. pose proof (proj1 (proj2 G)). lia. }
      eapply safe_bind; [apply HC; auto|]. intros c s2 G2 [Hc HDc]. cbv beta.
      pose proof (grow_trans _ _ _ _ _ _ G1 G2) as G12.
      eapply safe_bind; [apply HC; auto|]. intros d s3 G3 [Hd HDd]. cbv beta.
      apply safe_ret; [apply (grow_inv _ _ _ _ _ G3)|]. split; auto.
      constructor; [|constructor; [|constructor]].
      * split; [eapply grow_good; eauto|]. destruct HDc as [->|H]; [left; exact Ha|]. right. eapply (HNL s1); [exact G1|exact H].
      * split; [auto|]. destruct HDd as [->|H]; [left; exact Hb|]. right. eapply (HNL s2); [exact G12|exact H].
  - intros cs s' G HF. cbv beta in *. apply safe_ret; [apply (grow_inv _ _ _ _ _ G)|]. rewrite <- pairs_length. clear - HF.
    induction HF as [|p c l m [HL HP] _ [IH1 IH2]]; [split; auto; constructor|]. cbn [concat length]. rewrite app_length. split; [lia|].
    apply Forall_app. auto.
Qed.
Lemma safe_mutate_all h rate rs s : inv s -> Forall (good s) rs ->
  safe h (mmap (bit_flips rate) rs) (fun ms s' => length ms = length rs /\ Forall (good s') ms /\ Forall (fun r => ~ live s r) ms) s.
Proof.
  intros I HG. eapply safe_post.
  - apply (safe_mmap E A h (bit_flips rate) (fun _ r s' => good s' r /\ ~ live s r) rs s I).
    + intros x y s1 s2 G [H1 H2]. split; auto. eapply grow_good; eauto.
    + intros r s1 Hr G1. eapply safe_post; [apply safe_bit_flips; [apply (grow_inv _ _ _ _ _ G1)|]|].
      * apply (grow_good _ _ _ _ _ _ G1). eapply Forall_In; eauto.
      * intros c s2 G2 (H1 & H2 & _). split; auto. intros Hl. apply H2. unfold live in *. pose proof (proj1 (proj2 G1)). lia.
  - intros ms s' G HF. cbv beta in *. split; [apply Forall2_len in HF; auto|]. clear - HF.
    split; induction HF as [|x y l m [H1 H2] _ IH]; constructor; auto.
Qed.
Lemma safe_iterate {T} h (f : T -> HSt K T) (Q : T -> hst K -> Prop) k : forall x s,
  inv s -> Q x s -> (forall x s, inv s -> Q x s -> safe h (f x) Q s) -> safe h (iterate k f x) Q s.
Proof.
  induction k as [|k IH]; intros x s I HQ HF; cbn [iterate].
  - apply safe_ret; auto.
  - eapply safe_bind; [apply HF; auto|]. intros x' s' G HQ'. cbv beta. apply IH; auto. apply (grow_inv _ _ _ _ _ G).
Qed.
End Safe.
