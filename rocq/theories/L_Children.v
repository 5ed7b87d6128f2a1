(* How many children of its seed a discovery uses. *)
From Coq Require Import Lia.
From Verif Require Import PyNum PyList PyMon PyRng L_List M_Matching M_Rule M_RuleGen M_Mixing M_Discovery S_Discovery L_DiscoveryProps M_Novelty L_SasProps M_Fit M_Shipped.

Lemma rmap_ext_res {A B} (f g : A -> res B) l : (forall a, In a l -> f a = g a) -> rmap f l = rmap g l.
Proof. induction l as [|a l IH]; intros H; [reflexivity|]. cbn [rmap]. rewrite (H a) by (left; reflexivity). rewrite IH; [reflexivity|]. intros b Hb. apply H. right. exact Hb. Qed.

Section Children.
Variable L : learner.
Lemma es_initial_len rngs c X y pool el n d : table d X y -> forall l g', es_initial c (discovery_env (L := L) X y pool el) n rngs = (Ok l, g') -> length l = n.
Proof.
  intros HT l g' H. unfold es_initial in H. apply bind_inv in H as (xs & g1 & H1 & H). apply mmap_len in H. rewrite H.
  apply (origins_len L (discovery_env X y pool el) d HT) in H1 as [H1 _]. exact H1.
Qed.
Lemma es_split c (D : denv L) n kids g : es_optimize c D n kids g = match es_initial c D n g with
  | (Ok initial, g1) => (match rmap (es_task c D) (combine initial (map kids (seq 0 n))) with Ok rs => filter_invalid (d_accept (es_d c)) (dy D) rs | Raise x => Raise x end, g1)
  | (Raise x, g1) => (Raise x, g1) end.
Proof.
  unfold es_optimize, es_initial, bind. destruct (origins (d_origin (es_d c)) D n g) as [[xs|x] g1]; [|reflexivity].
  destruct (mmap (new_rule (es_d c) D) xs g1) as [[l|x] g2]; [|reflexivity]. unfold lift. destruct (rmap (es_task c D) _); reflexivity.
Qed.
Lemma es_children rngof c k X y d pool el n s (z : escfg) r m z' : table d X y -> drun (es_discovery L rngof c k) X y pool el n s z = (r, (m, z')) ->
  (m <= n)%nat /\ (forall out, r = Ok out -> m = n) /\ z' = z /\
  (forall rngof', rngof' (sstream s) = rngof (sstream s) -> (forall i, (i < m)%nat -> rngof' (child s (spawned s + i)) = rngof (child s (spawned s + i))) ->
   drun (es_discovery L rngof' c k) X y pool el n s z = (r, (m, z'))).
Proof.
  intros HT H. cbn [drun es_discovery] in *. rewrite es_split in H. pose proof (es_initial_len (rngof (sstream s)) z X y pool el n d HT) as HL.
  destruct (es_initial z (discovery_env X y pool el) n (rngof (sstream s))) as [[l|x] g1] eqn:E; cbn [fst] in H.
  - specialize (HL l g1 eq_refl). assert (Hm : m = n) by (injection H as _ H _; destruct l; cbn in HL; congruence). split; [lia|]. split; [auto|]. split; [injection H as _ _ H; auto|].
    intros rngof' H1 H2. rewrite es_split, H1, E. cbn [fst]. rewrite <- H. f_equal. f_equal. assert (HM : map (fun i => rngof' (child s (spawned s + i))) (seq 0 n) = map (fun i => rngof (child s (spawned s + i))) (seq 0 n)).
    { apply map_ext_in. intros i Hi. apply in_seq in Hi. apply H2. lia. } rewrite HM. reflexivity.
  - injection H as <- <- <-. split; [lia|]. split; [discriminate|]. split; [reflexivity|]. intros rngof' H1 _. rewrite es_split, H1, E. reflexivity.
Qed.
Lemma es_all_children rngof c k X y d pool el n s (z : escfg) x m z' : table d X y -> drun (es_discovery L rngof c k) X y pool el n s z = (Raise x, (m, z')) -> m = 0%nat \/ m = n.
Proof.
  intros HT H. cbn [drun es_discovery] in H. rewrite es_split in H. pose proof (es_initial_len (rngof (sstream s)) z X y pool el n d HT) as HL.
  destruct (es_initial z (discovery_env X y pool el) n (rngof (sstream s))) as [[l|x0] g1] eqn:E; cbn [fst] in H.
  - specialize (HL l g1 eq_refl). right. injection H as _ H _. destruct l; cbn in HL; congruence.
  - left. injection H as _ <- _. reflexivity.
Qed.
Lemma rs_children rngof c k X y pool el n s (z : rscfg) r m z' : drun (rs_discovery L rngof c k) X y pool el n s z = (r, (m, z')) ->
  m = 0%nat /\ forall rngof', rngof' (sstream s) = rngof (sstream s) -> drun (rs_discovery L rngof' c k) X y pool el n s z = (r, (m, z')).
Proof. intros H. cbn [drun rs_discovery] in *. split; [injection H as _ <- _; reflexivity|]. intros rngof' ->. exact H. Qed.
Lemma ns_children rngof c k X y pool el n s (z : nscfg * list (cell L)) r m z' : drun (ns_discovery L rngof c k) X y pool el n s z = (r, (m, z')) ->
  m = 0%nat /\ forall rngof', rngof' (sstream s) = rngof (sstream s) -> drun (ns_discovery L rngof' c k) X y pool el n s z = (r, (m, z')).
Proof.
  intros H. cbn [drun ns_discovery] in *. split; [|intros rngof' ->; exact H]. destruct (fst (ns_optimize _ _ _ _ _ _ _ _)); injection H as _ <- _; reflexivity.
Qed.
End Children.
From Verif Require Import L_RuleProps L_DiscoveryEx L_ShippedEx L_FitEx.
Definition es_two : escfg := mkEs (mkDcfg OrderedBound MeanInit (Clip [(0, 2)]) (MaxError (Fin 1)) UniformSamples) 2 2 EsPlus 2 (Mut (MutNormal (Scalar 1))) RFittest.
Definition two_seed : seedseq := mkSeed (mkStream 7 [0%nat]) 3.
Definition counts {T} (r : res (list (rule mean_learner)) * (nat * T)) : bool * nat := (match fst r with Ok (_ :: _) => true | _ => false end, fst (snd r)).
