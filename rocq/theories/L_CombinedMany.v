(* Setting several parameters of combined loggers at once. *)
From Coq Require Import String Ascii Permutation.
From Verif Require Import PyNum PyList PyMon M_Objects M_Combined S_Combined L_List L_Text L_Combined L_CombinedProps.
From Coq Require Import Lia.

(* ----- one assignment ----- *)
Definition assign (h : loggers) (k : keyword) : loggers :=
  match nth_error h (fst (target k)) with
  | Some (Simple ps) => update h (fst (target k)) (Simple (put ps (snd (target k)) (snd (snd k))))
  | _ => h
  end.
(* the same loggers with other values of parameters *)
Definition alike_logger (o o' : logger) : Prop :=
  match o, o' with Simple ps, Simple ps' => map fst ps' = map fst ps | Combined ms, Combined ms' => ms' = ms | _, _ => False end.
Definition shape (h h' : loggers) : Prop := Forall2 alike_logger h h'.
Lemma shape_refl h : shape h h.
Proof. induction h as [|[ps|ms] h IH]; constructor; try exact IH; reflexivity. Qed.
Lemma shape_trans h h' h'' : shape h h' -> shape h' h'' -> shape h h''.
Proof.
  intros A. revert h''. induction A as [|o o' h h' E A IH]; intros h'' B; inversion B as [|? o'' ? h3 E' B']; subst; constructor; [|now apply IH].
  destruct o, o', o''; cbn in *; try contradiction; congruence.
Qed.
Lemma shape_nth h h' p o : shape h h' -> nth_error h p = Some o -> exists o', nth_error h' p = Some o' /\ alike_logger o o'.
Proof.
  intros A. revert p. induction A as [|x x' h h' E A IH]; intros [|p] H; try discriminate H; cbn in *; [injection H as <-; now exists x'|now apply IH].
Qed.
Lemma shape_nth' h h' p o' : shape h h' -> nth_error h' p = Some o' -> exists o, nth_error h p = Some o /\ alike_logger o o'.
Proof.
  intros A. revert p. induction A as [|x x' h h' E A IH]; intros [|p] H; try discriminate H; cbn in *; [injection H as <-; now exists x|now apply IH].
Qed.
Lemma put_same_keys {A} (d : list (string * A)) k v : In k (map fst d) -> map fst (put d k v) = map fst d.
Proof.
  intros I. destruct (put_split d k v I) as (b & old & af & E1 & E2). rewrite E2. rewrite E1 at 1. now rewrite !map_app.
Qed.
Lemma shape_update h p o o' : nth_error h p = Some o -> alike_logger o o' -> shape h (update h p o').
Proof.
  revert p. induction h as [|x h IH]; intros [|p] E A; try discriminate E; cbn [update] in *.
  - injection E as ->. constructor; [exact A|apply shape_refl].
  - constructor; [destruct x; reflexivity|]. now apply IH.
Qed.
Lemma assign_shape h v k : names_parameter h v k -> shape h (assign h k).
Proof.
  intros [L (ps & E)]. unfold assign. rewrite E. eapply shape_update; [exact E|]. cbn.
  destruct (leads_entry _ _ _ _ _ L) as (o & E' & I). rewrite E in E'. injection E' as <-. cbn [entries] in I. rewrite (map_fst_map (fun a => Prim a)) in I. now apply put_same_keys.
Qed.
Lemma shape_orderly h h' : shape h h' -> orderly h -> orderly h'.
Proof.
  intros S O p o' E. destruct (shape_nth' _ _ _ _ S E) as (o & E0 & A). specialize (O _ _ E0). destruct o, o'; cbn in *; try contradiction; [now rewrite A|now subst].
Qed.
Lemma alike_names o o' : alike_logger o o' -> map fst (entries o') = map fst (entries o).
Proof. destruct o, o'; cbn; try contradiction; intros E; [now rewrite !(map_fst_map (fun a => Prim a))|now subst]. Qed.
Lemma shape_leads h h' v key q n : shape h h' -> leads h v key q n -> leads h' v key q n.
Proof.
  intros S L. induction L as [q o n E I|p ms m v k q n E I L IH].
  - destruct (shape_nth _ _ _ _ S E) as (o' & E' & A). apply (Leads_here _ _ o'); [exact E'|]. now rewrite (alike_names _ _ A).
  - destruct (shape_nth _ _ _ _ S E) as (o' & E' & A). destruct o' as [?|ms']; cbn in A; [contradiction|subst ms']. now apply (Leads_inner _ _ ms m v).
Qed.
Lemma shape_names h h' v k : shape h h' -> names_parameter h v k -> names_parameter h' v k.
Proof.
  intros S [L (ps & E)]. split; [now apply (shape_leads h)|]. destruct (shape_nth _ _ _ _ S E) as ([ps'|ms'] & E' & A); [now exists ps'|destruct A].
Qed.
Lemma shape_get h h' : shape h h' -> forall f v out, get_params f h v = Ok out -> exists out', get_params f h' v = Ok out'.
Proof.
  intros S. induction f as [|f IH]; intros v out G; [discriminate G|]. destruct v as [a|p]; [discriminate G|].
  destruct (nth_error h p) as [o|] eqn:E; [|cbn [get_params] in G; unfold nth_logger in G; rewrite E in G; discriminate G].
  destruct (shape_nth _ _ _ _ S E) as (o' & E' & A). destruct o as [ps|ms], o' as [ps'|ms']; cbn in A; try contradiction.
  - rewrite (get_simple _ _ _ _ E'). now eexists.
  - subst ms'. rewrite (get_combined _ _ _ _ E'). rewrite (get_combined _ _ _ _ E) in G. assert (W : forall l d d' o, walk f h l d = Ok o -> exists o', walk f h' l d' = Ok o').
    { induction l as [|[n [a|q]] l IHl]; intros d d' o W; cbn in *; [now eexists|eauto|].
      destruct (get_params f h (Ref q)) as [ps|e] eqn:Gq; [|discriminate W]. destruct (IH _ _ Gq) as (ps' & ->). cbn in *. eauto. }
    exact (W _ _ _ _ G).
Qed.

(* ----- a logger without members ----- *)
Definition all_named (valid : list (string * value)) (ks : list keyword) : Prop := forall k, In k ks -> exists w, item valid (fst k) = Some w.
Lemma set_each_own p : forall ks h valid ps, nth_error h p = Some (Simple ps) -> Forall unsplit (map fst ks) -> all_named valid ks ->
  Forall (fun k => target k = (p, fst k)) ks ->
  exists valid', set_each p valid (map given_as ks) [] h = (Ok (valid', []), fold_left assign ks h).
Proof.
  induction ks as [|k ks IH]; intros h valid ps E U V T; cbn [map set_each fold_left]; [now exists valid|].
  inversion U as [|? ? U0 U']; inversion T as [|? ? T0 T']; subst. unfold given_as at 1. cbn [fst snd]. rewrite (partition_unsplit _ U0).
  destruct (V k (or_introl eq_refl)) as [w W]. rewrite W. unfold bind at 1, set_own. unfold bind at 1, get. unfold bind at 1, lift, nth_logger. rewrite E. cbn [of_option].
  unfold store at 1.
  assert (A : update h p (Simple (put ps (fst k) (snd (snd k)))) = assign h k) by (unfold assign; rewrite T0; cbn [fst snd]; now rewrite E).
  rewrite A. apply (IH _ _ (put ps (fst k) (snd (snd k)))).
  - rewrite <- A. apply update_nth_same. apply nth_error_Some. congruence.
  - exact U'.
  - intros k' I. rewrite item_put. destruct (String.eqb (fst k) (fst k')); [now eexists|]. apply V. now right.
  - exact T'.
Qed.

(* ----- keywords for members, collected by member ----- *)
Definition forget (nested : list (string * list keyword)) : list (string * list (string * value)) := map (fun ns => (fst ns, map given_as (snd ns))) nested.
Definition collect (nested : list (string * list keyword)) (k : keyword) : list (string * list keyword) :=
  match partition (fst k) with
  | (m, Some sub) => put nested m (put (match item nested m with Some l => l | None => [] end) sub (snd k))
  | _ => nested
  end.
Lemma put_map {A B} (f : A -> B) (d : list (string * A)) k v : put (map (fun kv => (fst kv, f (snd kv))) d) k (f v) = map (fun kv => (fst kv, f (snd kv))) (put d k v).
Proof. induction d as [|[m w] d IH]; cbn [map put fst snd]; [reflexivity|]. destruct (String.eqb m k); cbn [map fst snd]; [reflexivity|now rewrite IH]. Qed.
Lemma given_as_put l sub x : put (map given_as l) sub (One (Prim (snd x))) = map given_as (put l sub x).
Proof. exact (put_map (fun x : nat * string * atom => One (Prim (snd x))) l sub x). Qed.
Lemma set_each_nested p h out : forall ks nested,
  Forall (fun k => exists m sub w, partition (fst k) = (m, Some sub) /\ item out m = Some w) ks ->
  set_each p out (map given_as ks) (forget nested) h = (Ok (out, forget (fold_left collect ks nested)), h).
Proof.
  induction ks as [|k ks IH]; intros nested F; cbn [map set_each fold_left]; [reflexivity|]. inversion F as [|? ? (m & sub & w & P & W) F']; subst.
  unfold given_as at 1. cbn [fst snd]. rewrite P, W. rewrite <- (IH _ F'). f_equal. unfold collect. rewrite P. unfold forget at 2. rewrite <- (put_map (map given_as) nested m). fold (forget nested). f_equal.
  rewrite <- given_as_put. f_equal. unfold forget. rewrite item_map. now destruct (item nested m).
Qed.
Definition flat (nested : list (string * list keyword)) : list keyword := flat_map (fun ns => map (fun k => (joined (fst ns) (fst k), snd k)) (snd ns)) nested.
Lemma put_new {A} (d : list (string * A)) k v : ~ In k (map fst d) -> put d k v = d ++ [(k, v)].
Proof.
  induction d as [|[m w] d IH]; intros N; [reflexivity|]. cbn [put app]. destruct (String.eqb_spec m k) as [->|]; [exfalso; apply N; now left|]. f_equal. apply IH. intros I. apply N. now right.
Qed.
Lemma flat_put nested m sub x l : item nested m = Some l \/ item nested m = None /\ l = [] ->
  Permutation (flat (put nested m (l ++ [(sub, x)]))) ((joined m sub, x) :: flat nested).
Proof.
  induction nested as [|[n l0] nested IH]; intros H; cbn [item put] in *.
  - destruct H as [H|[_ ->]]; [discriminate|]. apply Permutation_refl.
  - destruct (String.eqb_spec n m) as [->|NE].
    + destruct H as [H|[H _]]; [injection H as ->|discriminate]. unfold flat. cbn [flat_map fst snd]. rewrite map_app. cbn [map fst snd]. rewrite <- app_assoc.
      apply Permutation_sym. apply (Permutation_middle (map _ l) (flat_map _ nested) (joined m sub, x)).
    + unfold flat in *. cbn [flat_map]. specialize (IH H). eapply Permutation_trans; [apply Permutation_app_head; exact IH|]. apply Permutation_sym, Permutation_middle.
Qed.
(* what holds of the collected keywords *)
Lemma NoDup_app_last' {A} (l : list A) x : NoDup l -> ~ In x l -> NoDup (l ++ [x]).
Proof. intros N I. apply (Permutation_NoDup (l := x :: l)); [apply Permutation_cons_append|now constructor]. Qed.
Definition collected (h : loggers) (ms : list (string * val)) (nested : list (string * list keyword)) : Prop :=
  NoDup (map fst nested) /\ Forall (fun ns => exists r, In (fst ns, Ref r) ms /\ NoDup (map fst (snd ns)) /\ Forall (names_parameter h (Ref r)) (snd ns)) nested.
Definition inner (h : loggers) (ms : list (string * val)) (k : keyword) : Prop :=
  exists m sub r, fst k = joined m sub /\ plain_name m /\ In (m, Ref r) ms /\ names_parameter h (Ref r) (sub, snd k).
Lemma names_of_flat nested m l sub : item nested m = Some l -> In sub (map fst l) -> In (joined m sub) (map fst (flat nested)).
Proof.
  intros E I. apply item_some in E. apply in_map_iff in I as ([s x] & [= ->] & I). apply in_map_iff. exists (joined m sub, x). split; [reflexivity|].
  unfold flat. apply in_flat_map. exists (m, l). split; [exact E|]. cbn [fst snd]. apply in_map_iff. now exists (sub, x).
Qed.
Lemma item_put_in {A} (P : string * A -> Prop) (d : list (string * A)) k v : Forall P d -> P (k, v) -> Forall P (put d k v).
Proof.
  induction 1 as [|[m w] d H F IH]; intros Pk; cbn [put]; [now constructor|]. destruct (String.eqb_spec m k) as [->|]; constructor; auto.
Qed.
Lemma in_unique {A} (d : list (string * A)) k a b : NoDup (map fst d) -> In (k, a) d -> In (k, b) d -> a = b.
Proof. intros N I J. apply item_in in I, J; try exact N. congruence. Qed.
Lemma collect_all h ms : NoDup (map fst ms) -> forall ks nested, Forall (inner h ms) ks -> NoDup (map fst ks) ->
  (forall k, In k ks -> ~ In (fst k) (map fst (flat nested))) -> collected h ms nested ->
  collected h ms (fold_left collect ks nested) /\ Permutation (flat (fold_left collect ks nested)) (ks ++ flat nested).
Proof.
  intros NM. induction ks as [|k ks IH]; intros nested F N D C; cbn [fold_left]; [split; [exact C|apply Permutation_refl]|].
  inversion F as [|? ? (m & sub & r & K & PM & IM & NP) F']; inversion N as [|? ? N0 N']; subst.
  assert (EC : exists l, (item nested m = Some l \/ item nested m = None /\ l = []) /\ collect nested k = put nested m (l ++ [(sub, snd k)])).
  { unfold collect. rewrite K, (partition_plain m sub PM). destruct (item nested m) as [l|] eqn:EL.
    - exists l. split; [now left|]. rewrite (put_new l); [reflexivity|]. intros I. apply (D k (or_introl eq_refl)). rewrite K. now apply (names_of_flat _ _ l).
    - exists []. split; [now right|]. reflexivity. }
  destruct EC as (l & HL & EC). rewrite EC.
  assert (Pm : Permutation (flat (put nested m (l ++ [(sub, snd k)]))) (k :: flat nested)).
  { rewrite (flat_put _ _ _ _ _ HL). destruct k as [key x]. cbn [fst snd] in *. rewrite K. apply Permutation_refl. }
  destruct C as [C1 C2].
  destruct (IH (put nested m (l ++ [(sub, snd k)]))) as [I1 I2]; try assumption.
  - intros k' I' X. apply (Permutation_in _ (Permutation_map fst Pm)) in X. cbn in X. destruct X as [X|X].
    + apply N0. rewrite X. now apply in_map.
    + exact (D k' (or_intror I') X).
  - split; [now apply put_nodup|]. apply item_put_in; [exact C2|]. cbn [fst snd]. exists r. split; [exact IM|].
    destruct HL as [HL|[_ ->]].
    + apply item_some in HL as HI. rewrite Forall_forall in C2. destruct (C2 _ HI) as (r' & I1 & N1 & F1). cbn [fst snd] in *.
      assert (ER : Ref r' = Ref r) by exact (in_unique _ _ _ _ NM I1 IM). injection ER as ->. split.
      * rewrite map_app. cbn. apply NoDup_app_last'; [exact N1|]. intros I. apply (D k (or_introl eq_refl)). rewrite K. now apply (names_of_flat _ _ l).
      * apply Forall_app. split; [exact F1|]. repeat constructor; apply NP.
    + split; [repeat constructor; intros []|]. repeat constructor; apply NP.
  - split; [exact I1|]. rewrite I2, Pm. apply Permutation_sym, Permutation_middle.
Qed.

(* ----- all keywords ----- *)
Lemma assigns_shape h v : forall ks, Forall (names_parameter h v) ks -> shape h (fold_left assign ks h).
Proof.
  intros ks. revert h. induction ks as [|k ks IH]; intros h F; [apply shape_refl|]. inversion F as [|? ? F0 F']; subst. cbn [fold_left].
  pose proof (assign_shape _ _ _ F0) as S. apply (shape_trans _ _ _ S). apply IH. eapply Forall_impl; [|exact F']. intros a. now apply shape_names.
Qed.
(* only the second part of a keyword matters for the assignment *)
Lemma assigns_ext ks ks' h : map snd ks = map snd ks' -> fold_left assign ks h = fold_left assign ks' h.
Proof.
  revert ks' h. induction ks as [|k ks IH]; intros [|k' ks'] h E; try discriminate E; [reflexivity|]. cbn in E. injection E as E0 E. cbn [fold_left].
  assert (A : assign h k = assign h k') by (unfold assign, target; now rewrite E0). rewrite A. now apply IH.
Qed.
Lemma replace_none p names kws h : forall ks, Forall (fun k => exists m sub, partition k = (m, Some sub)) ks -> replace_members p names ks kws h = (Ok kws, h).
Proof. induction ks as [|k ks IH]; intros F; cbn [replace_members]; [reflexivity|]. inversion F as [|? ? (m & sub & P) F']; subst. rewrite P. now apply IH. Qed.
Lemma item_given_none ks key : ~ In key (map fst ks) -> item (map given_as ks) key = None.
Proof.
  intros N. destruct (item (map given_as ks) key) as [w|] eqn:E; [|reflexivity]. exfalso. apply N. apply item_some in E. apply in_map_iff in E as ([k x] & [= -> _] & I). now apply (in_map fst) in I.
Qed.
Lemma set_nested f out h ms : orderly h -> forall nested ts,
  (forall v ks o h0, orderly h0 -> get_params f h0 v = Ok o -> NoDup (map fst ks) -> Forall (names_parameter h0 v) ks ->
     exists ks', Permutation ks' ks /\ set_params f v (map given_as ks) h0 = (Ok tt, fold_left assign ks' h0)) ->
  (forall m r, In (m, Ref r) ms -> item out m = Some (One (Ref r)) /\ exists o, get_params f h (Ref r) = Ok o) ->
  (forall h0, shape h h0 -> shape h (fold_left assign ts h0)) ->
  Forall (fun ns => exists r, In (fst ns, Ref r) ms /\ NoDup (map fst (snd ns)) /\ Forall (names_parameter h (Ref r)) (snd ns)) nested ->
  exists ks', Permutation (map snd ks') (map snd (flat nested)) /\
    miter (fun ns => match item out (fst ns) with Some (One c) => set_params f c (snd ns) | _ => raise AttributeError end) (forget nested) (fold_left assign ts h)
    = (Ok tt, fold_left assign ks' (fold_left assign ts h)).
Proof.
  intros O nested ts IHf HM HS F. revert ts HS. induction F as [|[m subs] nested (r & IM & N & FN) F IH]; intros ts HS; cbn [forget map miter fst snd] in *.
  - exists []. split; [apply Permutation_refl|reflexivity].
  - destruct (HM _ _ IM) as (W & o & G). rewrite W. unfold bind.
    pose proof (HS h (shape_refl h)) as S. set (h1 := fold_left assign ts h) in *.
    destruct (shape_get _ _ S _ _ _ G) as (o1 & G1).
    assert (FN1 : Forall (names_parameter h1 (Ref r)) subs) by (eapply Forall_impl; [|exact FN]; intros a; now apply shape_names).
    destruct (IHf (Ref r) subs o1 h1 (shape_orderly _ _ S O) G1 N FN1) as (ks1 & P1 & E1). cbn [fst snd]. rewrite E1.
    assert (E2 : fold_left assign ks1 h1 = fold_left assign (ts ++ ks1) h) by (rewrite fold_left_app; reflexivity). rewrite E2.
    destruct (IH (ts ++ ks1)) as (ks2 & P2 & E3).
    + intros h0 S0. rewrite fold_left_app. pose proof (HS h0 S0) as S1. apply (shape_trans _ _ _ S1). apply (assigns_shape _ (Ref r)).
      rewrite P1. eapply Forall_impl; [|exact FN]. intros a. now apply shape_names.
    + unfold forget in E3. rewrite E3. exists (ks1 ++ ks2). split; [|rewrite !fold_left_app; reflexivity].
      unfold flat in *. cbn [flat_map fst snd]. rewrite !map_app. apply Permutation_app; [|exact P2]. rewrite (Permutation_map snd P1), map_map. apply Permutation_refl.
Qed.
Lemma set_many : forall f v ks out h, orderly h -> get_params f h v = Ok out -> NoDup (map fst ks) -> Forall (names_parameter h v) ks ->
  exists ks', Permutation ks' ks /\ set_params f v (map given_as ks) h = (Ok tt, fold_left assign ks' h).
Proof.
  induction f as [|f IH]; intros v ks out h O G N F; [discriminate G|]. destruct v as [a|p]; [discriminate G|].
  destruct (nth_error h p) as [[ps|ms]|] eqn:E.
  - exists ks. split; [apply Permutation_refl|]. rewrite (set_simple _ _ _ _ _ E). destruct ks as [|k ks]; [reflexivity|]. unfold base_set. cbn [map].
    change (given_as k :: map given_as ks) with (map given_as (k :: ks)). unfold bind at 1, get. unfold bind at 1, lift at 1. rewrite G.
    assert (K : Forall (fun k => target k = (p, fst k) /\ In (fst k) (map fst ps)) (k :: ks)).
    { eapply Forall_impl; [|exact F]. intros [key [[q n] x]] [L _]. unfold target in *. cbn [fst snd] in *. inversion L as [q' o n' E' I'|p' ms' m v k' q' n' E' I' L']; subst; rewrite E in E'; [|discriminate E'].
      injection E' as <-. cbn [entries] in I'. rewrite (map_fst_map (fun a => Prim a)) in I'. now split. }
    destruct (O _ _ E) as [NP U].
    unfold bind at 1. destruct (set_each_own p (k :: ks) h out ps E) as (valid' & ->); [| | |reflexivity].
    + apply Forall_forall. intros key I. apply in_map_iff in I as (k0 & <- & I). rewrite Forall_forall in K, U. apply U, K, I.
    + intros k0 I. rewrite Forall_forall in K. destruct (K _ I) as [_ IP]. apply in_map_iff in IP as ([n x] & EN & IP). cbn in EN. subst n. exists (One (Prim x)).
      apply (get_lists h O _ _ _ G). apply (Listed_here _ _ _ _ _ E). cbn [entries]. apply in_map_iff. now exists (fst k0, x).
    + eapply Forall_impl; [|exact K]. now intros a [H _].
  - destruct (O _ _ E) as (NM & PM & NL). rewrite Forall_forall in PM.
    assert (K : Forall (inner h ms) ks).
    { eapply Forall_impl; [|exact F]. intros [key [[q n] x]] [L (ps & EP)]. unfold target in *. cbn [fst snd] in *. inversion L as [q' o n' E' I'|p' ms' m v k' q' n' E' I' L']; subst; rewrite E in E'; [congruence|].
      injection E' as <-. destruct v as [a|r]; [inversion L'|]. exists m, k', r. split; [reflexivity|]. split; [apply PM; now apply (in_map fst) in I'|]. split; [exact I'|]. split; [exact L'|now exists ps]. }
    assert (KP : Forall (fun k => exists m sub, partition k = (m, Some sub)) (map fst (map given_as ks))).
    { apply Forall_forall. intros key I. rewrite map_map in I. apply in_map_iff in I as (k & <- & I). rewrite Forall_forall in K. destruct (K _ I) as (m & sub & r & EK & P & _). exists m, sub. cbn [given_as fst]. rewrite EK. now apply partition_plain. }
    assert (NLK : ~ In "loggers"%string (map fst ks)).
    { intros I. apply in_map_iff in I as (k & EK & I). rewrite Forall_forall in K. destruct (K _ I) as (m & sub & r & EK' & _). apply (joined_split m sub). rewrite <- EK', EK. apply loggers_unsplit. }
    cbn [set_params]. unfold bind at 1, get at 1. unfold bind at 1, lift at 1, nth_logger at 1. rewrite E. cbn [of_option].
    rewrite (item_given_none ks _ NLK). unfold bind at 1, ret at 1. unfold bind at 1, get at 1. unfold bind at 1, lift at 1, nth_logger at 1. rewrite E. cbn [of_option].
    unfold bind at 1. rewrite (replace_none _ _ _ _ _ KP).
    destruct ks as [|k ks]; [exists []; split; [apply Permutation_refl|reflexivity]|]. cbn [map]. change (given_as k :: map given_as ks) with (map given_as (k :: ks)).
    unfold bind at 1, get at 1. unfold bind at 1, lift at 1. rewrite G.
    assert (HV : forall m r, In (m, Ref r) ms -> item out m = Some (One (Ref r))) by (intros m r I; apply (get_lists h O _ _ _ G); now apply (Listed_here _ _ _ _ _ E)).
    unfold bind at 1. change (@nil (string * list (string * value))) with (forget []). rewrite (set_each_nested p h out).
    2: { eapply Forall_impl; [|exact K]. intros k0 (m & sub & r & EK & P & I & _). exists m, sub, (One (Ref r)). rewrite EK. split; [now apply partition_plain|now apply HV]. }
    cbn [fst snd].
    destruct (collect_all h ms NM (k :: ks) [] K N) as [[_ C] PC]; [intros k0 _ []|split; constructor|].
    rewrite (get_combined _ _ _ _ E) in G.
    destruct (set_nested f out h ms O (fold_left collect (k :: ks) []) []) as (ks' & P' & E'); [| | |exact C|].
    + intros v0 ks0 o h0 O0 G0 N0 F0. exact (IH v0 ks0 o h0 O0 G0 N0 F0).
    + intros m r I. split; [now apply HV|]. exact (walk_members _ _ _ _ _ _ _ G I).
    + intros h0 S. exact S.
    + cbn [fold_left] in E'. 
      assert (PS : Permutation (map snd ks') (map snd (k :: ks))) by (rewrite P'; apply Permutation_map; rewrite PC; cbn; rewrite app_nil_r; apply Permutation_refl).
      destruct (Permutation_map_inv _ _ PS) as (ks2 & E2 & P2). exists ks2. split; [now apply Permutation_sym|].
      rewrite <- (assigns_ext ks' ks2 h E2). exact E'.
  - cbn [get_params] in G. unfold nth_logger in G. rewrite E in G. discriminate G.
Qed.

(* ----- what the assignments amount to ----- *)
Lemma put_forall2 (ps : list (string * atom)) n a : In n (map fst ps) -> NoDup (map fst ps) ->
  Forall2 (fun e e' => fst e' = fst e /\ (fst e = n -> snd e' = Prim a) /\ (fst e <> n -> snd e' = snd e)) (entries (Simple ps)) (entries (Simple (put ps n a))).
Proof.
  cbn [entries]. induction ps as [|[m w] ps IH]; intros I N; [destruct I|]. inversion N as [|? ? N0 N']; subst. cbn [put]. destruct (String.eqb_spec m n) as [->|NE]; cbn [map fst snd].
  - constructor; [now repeat split|]. clear - N0. cbn [fst] in N0. induction ps as [|[m w'] ps IH]; cbn; constructor.
    + cbn. repeat split. intros ->. exfalso. apply N0. now left.
    + apply IH. intros I. apply N0. now right.
  - constructor; [now repeat split|]. destruct I as [E|I]; [contradiction|]. now apply IH.
Qed.
Lemma Forall2_compose {A} (P Q R : A -> A -> Prop) l1 l2 l3 : (forall a b c, P a b -> Q b c -> R a c) -> Forall2 P l1 l2 -> Forall2 Q l2 l3 -> Forall2 R l1 l3.
Proof. intros H F. revert l3. induction F; intros l3 G; inversion G; subst; constructor; eauto. Qed.
Lemma Forall2_same {A} (P : A -> A -> Prop) l : (forall a, P a a) -> Forall2 P l l.
Proof. intros H. induction l; constructor; auto. Qed.
Lemma same_kind_refl o : same_kind o o.
Proof. destruct o; exact I. Qed.
Lemma assigns_set : forall ks h v, orderly h -> Forall (names_parameter h v) ks -> NoDup (map target ks) -> parameters_set h (fold_left assign ks h) ks.
Proof.
  induction ks as [|k ks IH]; intros h v O F N.
  - split; [reflexivity|]. intros p o E. exists o. split; [exact E|]. split; [apply same_kind_refl|]. apply Forall2_same. intros e. repeat split. intros k [].
  - inversion F as [|? ? F0 F']; inversion N as [|? ? N0 N']; subst. cbn [fold_left]. pose proof (assign_shape _ _ _ F0) as S.
    destruct (IH (assign h k) v (shape_orderly _ _ S O)) as [IL IP]; [eapply Forall_impl; [|exact F']; intros a; now apply shape_names|exact N'|].
    destruct F0 as [L (ps & EP)]. destruct (leads_entry _ _ _ _ _ L) as (o' & E' & IN). rewrite EP in E'. injection E' as <-. cbn [entries] in IN. rewrite (map_fst_map (fun a => Prim a)) in IN.
    assert (AE : assign h k = update h (fst (target k)) (Simple (put ps (snd (target k)) (snd (snd k))))) by (unfold assign; now rewrite EP).
    split; [rewrite IL, AE; apply update_length|]. intros p o E.
    assert (ST : exists o1, nth_error (assign h k) p = Some o1 /\ same_kind o o1 /\
      Forall2 (fun e e' => fst e' = fst e /\ (target k = (p, fst e) -> snd e' = Prim (snd (snd k))) /\ (target k <> (p, fst e) -> snd e' = snd e)) (entries o) (entries o1)).
    { rewrite AE. destruct (Nat.eq_dec p (fst (target k))) as [->|NE].
      - rewrite EP in E. injection E as <-. exists (Simple (put ps (snd (target k)) (snd (snd k)))). split; [apply update_nth_same; apply nth_error_Some; congruence|]. split; [exact I|].
        pose proof (put_forall2 ps _ (snd (snd k)) IN (proj1 (O _ _ EP))) as PF. eapply (Forall2_compose _ eq); [|exact PF|now apply Forall2_same].
        intros a b c (H1 & H2 & H3) <-. split; [exact H1|]. split.
        + intros T. apply H2. rewrite T. reflexivity.
        + intros T. apply H3. intros X. apply T. rewrite X. apply surjective_pairing.
      - exists o. split; [rewrite update_nth_other; [exact E|auto]|]. split; [apply same_kind_refl|]. apply Forall2_same. intros e. repeat split. intros T. exfalso. apply NE. now rewrite T. }
    destruct ST as (o1 & E1 & K1 & S1). destruct (IP p o1 E1) as (o2 & E2 & K2 & S2). exists o2. split; [exact E2|].
    split; [destruct o, o1, o2; cbn in *; tauto|]. eapply Forall2_compose; [|exact S1|exact S2]. cbv beta.
    intros a b c (A1 & A2 & A3) (B1 & B2 & B3). rewrite A1 in *. split; [congruence|]. split.
    + intros k' [<-|I'] T; [|now apply (B2 k' I' T)]. rewrite B3; [now apply A2|]. intros k' I' T'. apply N0. rewrite T, <- T'. now apply in_map.
    + intros H. rewrite B3; [|intros k' I'; apply H; now right]. apply A3. apply H. now left.
Qed.
Lemma sets_several h v ks fuel out : orderly h -> Forall (names_parameter h v) ks -> NoDup (map fst ks) -> NoDup (map target ks) -> get_params fuel h v = Ok out ->
  exists h', set_params fuel v (map given_as ks) h = (Ok tt, h') /\ parameters_set h h' ks.
Proof.
  intros O F N NT G. destruct (set_many _ _ _ _ _ O G N F) as (ks' & P & E). eexists. split; [exact E|].
  destruct (assigns_set ks' h v O) as [SL SP]; [now rewrite P|now rewrite P|]. split; [exact SL|]. intros p o Ep. destruct (SP p o Ep) as (o' & E' & K & S). exists o'. split; [exact E'|]. split; [exact K|].
  eapply Forall2_compose; [|exact S|apply (Forall2_same eq); reflexivity]. intros a b c (A1 & A2 & A3) <-. split; [exact A1|]. split.
  - intros k I T. apply (A2 k); [|exact T]. apply (Permutation_in _ (Permutation_sym P) I).
  - intros H. apply A3. intros k I. apply H. apply (Permutation_in _ P I).
Qed.
