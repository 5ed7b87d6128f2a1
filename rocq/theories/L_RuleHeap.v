From Verif Require Import PyNum PyList PyMon PyRng L_Num L_List L_Rng M_Matching S_Matching L_Matching M_RuleGen L_RuleGen M_RuleHeap S_RuleHeap.

Lemma keeps_refl h : keeps h h. Proof. intros i bs H; exact H. Qed.
Lemma keeps_trans a b c : keeps a b -> keeps b c -> keeps a c.
Proof. intros H1 H2 i bs H. auto. Qed.
Lemma keeps_app h l : keeps h (h ++ l).
Proof. intros i bs H. rewrite nth_error_app1; auto. apply nth_error_Some; congruence. Qed.
Lemma nth_error_snoc {A} (h : list A) x : nth_error (h ++ [x]) (length h) = Some x.
Proof. rewrite nth_error_app2, Nat.sub_diag by lia. reflexivity. Qed.
Lemma nth_error_snoc' {A} (h : list A) x i : i = length h -> nth_error (h ++ [x]) i = Some x.
Proof. intros ->. apply nth_error_snoc. Qed.
Lemma update_snoc {A} (h : list A) x y : update (h ++ [x]) (length h) y = h ++ [y].
Proof. induction h as [|a h IH]; simpl; auto. rewrite IH. reflexivity. Qed.
Lemma keeps_update h l i x : (length h <= i)%nat -> keeps h l -> keeps h (update l i x).
Proof.
  intros Hi H j bs Hj. rewrite update_nth_other; auto.
  assert (j < length h)%nat by (apply nth_error_Some; congruence). lia.
Qed.

Lemma mutate_h_spec mu r m h g :
  denotes h r m ->
  let '(res, s') := mutate_h mu r (mkB h g) in
  keeps h (arrays s') /\ brng s' = snd (mutate mu m g) /\ (length h <= length (arrays s'))%nat /\
  match fst (mutate mu m g), res with
  | Ok m', Ok r' => denotes (arrays s') r' m' /\ fresh_from (length h) r'
  | Raise e, Raise e' => e = e'
  | _, _ => False
  end.
Proof.
  intros [Ht Ha]. destruct r as [t a], m as [t' bs]; simpl in Ht, Ha; subst t'.
  unfold mutate_h, clone_h, bread, balloc, bwrite, with_rng, bind, ret, of_option, mutate. simpl.
  rewrite Ha. simpl. rewrite nth_error_snoc. simpl.
  destruct (noise_bounds mu t bs g) as [[w|e] g'] eqn:En; simpl.
  - rewrite update_snoc.
    destruct t; simpl; rewrite ?nth_error_snoc; simpl;
      (split; [repeat (eapply keeps_trans; [|apply keeps_app]); try apply keeps_app; apply keeps_refl|]);
      (split; [reflexivity|]); (split; [rewrite ?app_length; simpl; lia|]);
      unfold denotes, fresh_from; simpl; rewrite ?nth_error_snoc; repeat split; auto;
      rewrite ?app_length; simpl; lia.
  - split; [apply keeps_app|]. split; [reflexivity|]. split; [rewrite app_length; lia|reflexivity].
Qed.

Lemma update_nth_self {A} (l : list A) i x y : nth_error l i = Some y -> nth_error (update l i x) i = Some x.
Proof. revert i; induction l as [|a l IH]; intros [|i]; simpl; intros H; try congruence; auto. Qed.

Lemma constrain_h_spec c r m h g n :
  denotes h r m -> fresh_from n r ->
  exists s', constrain_h c r (mkB h g) = (Ok r, s') /\ brng s' = g /\
    denotes (arrays s') r (constrain c m) /\ length (arrays s') = length h /\
    forall i bs, (i < n)%nat -> nth_error h i = Some bs -> nth_error (arrays s') i = Some bs.
Proof.
  intros [Ht Ha] HF. destruct r as [t a], m as [t' bs]; simpl in Ht, Ha; subst t'. unfold fresh_from in HF; simpl in HF.
  unfold constrain_h, bread, bwrite, bind, ret, of_option.
  destruct c as [space|mr|mr space]; simpl; rewrite Ha; simpl.
  - eexists; split; [reflexivity|]. simpl. unfold denotes; simpl.
    repeat split; auto; [eapply update_nth_self; exact Ha|apply update_length|].
    intros i b Hi Hb. rewrite update_nth_other; auto. lia.
  - eexists; split; [reflexivity|]. simpl. unfold denotes; simpl.
    repeat split; auto; [rewrite min_range_mt; reflexivity|eapply update_nth_self; exact Ha|apply update_length|].
    intros i b Hi Hb. rewrite update_nth_other; auto. lia.
  - erewrite update_nth_self by exact Ha. simpl. eexists; split; [reflexivity|]. simpl. unfold denotes; simpl.
    assert (Em : mkMatching t (bnd (min_range (mkMatching t bs) mr)) = min_range (mkMatching t bs) mr).
    { pose proof (min_range_mt (mkMatching t bs) mr) as E. simpl in E.
      destruct (min_range (mkMatching t bs) mr); simpl in *; congruence. }
    repeat split; auto.
    + rewrite min_range_mt; reflexivity.
    + erewrite update_nth_self; [|eapply update_nth_self; exact Ha]. rewrite min_range_mt. reflexivity.
    + rewrite !update_length; reflexivity.
    + intros i b Hi Hb. rewrite !update_nth_other; auto; lia.
Qed.

Lemma offspring_h_spec c mu r m h g :
  denotes h r m ->
  let '(res, s') := offspring_h c mu r (mkB h g) in
  keeps h (arrays s') /\
  match fst (mutate mu m g), res with
  | Ok m', Ok r' => denotes (arrays s') r' (constrain c m') /\ fresh_from (length h) r'
  | Raise e, Raise e' => e = e'
  | _, _ => False
  end.
Proof.
  intros HD. unfold offspring_h, bind. pose proof (mutate_h_spec mu r m h g HD) as H.
  destruct (mutate_h mu r (mkB h g)) as [[r1|e1] s1] eqn:E1; destruct H as (HK & HG & HL & H);
    destruct (fst (mutate mu m g)) as [m1|e2]; try contradiction; [|auto].
  destruct H as [HD1 HF1]. destruct s1 as [h1 g1]; simpl in *.
  destruct (constrain_h_spec c r1 m1 h1 g1 (length h) HD1 HF1) as (s2 & E2 & _ & HD2 & _ & HK2).
  rewrite E2. split; [|split; [exact HD2|exact HF1]].
  intros i bs Hi. apply HK2; [|apply HK; exact Hi]. apply nth_error_Some; congruence.
Qed.

Lemma crossover_h_spec rate a b ma mb h g :
  denotes h a ma -> denotes h b mb ->
  let '(res, s') := crossover_h rate a b (mkB h g) in
  keeps h (arrays s') /\
  match fst (rule_crossover rate ma mb g), res with
  | Ok (ma', mb'), Ok (a', b') =>
      denotes (arrays s') a' ma' /\ denotes (arrays s') b' mb' /\
      ((a' = a /\ b' = b) \/ (fresh_from (length h) a' /\ fresh_from (length h) b' /\ ra a' <> ra b'))
  | Raise e, Raise e' => e = e'
  | _, _ => False
  end.
Proof.
  intros [Hta Ha] [Htb Hb]. destruct a as [ta aa], b as [tb ab], ma as [ta' ba], mb as [tb' bb];
    simpl in Hta, Htb, Ha, Hb; subst ta' tb'.
  unfold crossover_h, rule_crossover, with_rng, bind. cbn [brng arrays rt ra mt bnd].
  destruct (random g) as [u g1]; cbn beta iota. destruct (qlt u rate).
  - destruct ta; try (split; [apply keeps_refl|reflexivity]).
    unfold clone_h, bread, balloc, bind, ret, of_option. cbn [brng arrays rt ra mt bnd]. rewrite Ha. simpl.
    assert (Hb1 : nth_error (h ++ [ba]) ab = Some bb) by (apply keeps_app; exact Hb).
    rewrite Hb1. simpl.
    assert (Ha2 : nth_error ((h ++ [ba]) ++ [bb]) aa = Some ba) by (do 2 apply keeps_app; exact Ha).
    assert (Hb2 : nth_error ((h ++ [ba]) ++ [bb]) ab = Some bb) by (do 2 apply keeps_app; exact Hb).
    rewrite Ha2, Hb2. simpl. destruct (draws (length ba) g1) as [qs g2]; simpl.
    split.
    + repeat (eapply keeps_trans; [|apply keeps_app]). apply keeps_refl.
    + unfold denotes, fresh_from; simpl. rewrite !app_length; simpl. repeat split; auto.
      * apply keeps_app. apply nth_error_snoc'. rewrite !app_length; simpl; lia.
      * apply nth_error_snoc'. rewrite !app_length; simpl; lia.
      * right. repeat split; lia.
  - unfold ret. split; [apply keeps_refl|]. unfold denotes; simpl. repeat split; auto.
Qed.
