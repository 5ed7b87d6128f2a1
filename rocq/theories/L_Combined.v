(* Lemmas on combined loggers. *)
From Coq Require Import String Ascii.
From Verif Require Import PyNum PyList PyMon M_Objects M_Combined S_Combined L_List L_Text.
From Coq Require Import Lia.

(* ----- keys ----- *)
Lemma partition_eq c s : partition (String c s) =
  match s with
  | String d s' => if (Ascii.eqb c "_" && Ascii.eqb d "_")%bool then (EmptyString, Some s') else let (a, b) := partition s in (String c a, b)
  | EmptyString => (String c EmptyString, None)
  end.
Proof.
  destruct (ascii_dec c "_") as [->|n].
  - destruct s as [|d s]; [reflexivity|]. destruct (ascii_dec d "_") as [->|m]; [reflexivity|].
    rewrite (proj2 (Ascii.eqb_neq d "_") m). cbn [andb Ascii.eqb Bool.eqb].
    destruct d as [[] [] [] [] [] [] [] []]; try reflexivity. congruence.
  - rewrite (proj2 (Ascii.eqb_neq c "_") n).
    destruct c as [[] [] [] [] [] [] [] []]; try (destruct s; reflexivity). congruence.
Qed.
Lemma unsplit_tail c s : unsplit (String c s) -> unsplit s.
Proof. intros H a b E. apply (H (String c a) b). now rewrite E. Qed.
Lemma partition_plain n k : plain_name n -> partition (joined n k) = (n, Some k).
Proof.
  unfold joined. induction n as [|c n IH]; intros P; [reflexivity|].
  assert (P' : plain_name n) by exact (unsplit_tail _ _ P).
  change (String c n ++ "__" ++ k)%string with (String c (n ++ "__" ++ k))%string. rewrite partition_eq. rewrite (IH P').
  destruct n as [|d n]; cbn [append].
  - destruct (ascii_dec c "_") as [->|m]; [|now rewrite (proj2 (Ascii.eqb_neq c "_") m)].
    exfalso. now apply (P EmptyString EmptyString).
  - destruct (ascii_dec c "_") as [->|m]; [|now rewrite (proj2 (Ascii.eqb_neq c "_") m)].
    destruct (ascii_dec d "_") as [->|m]; [|now rewrite (proj2 (Ascii.eqb_neq d "_") m)].
    exfalso. now apply (P EmptyString (n ++ "_")%string).
Qed.
Lemma partition_some s a b : partition s = (a, Some b) -> s = joined a b /\ plain_name a.
Proof.
  revert a b. induction s as [|c s IH]; intros a b E; [discriminate E|]. rewrite partition_eq in E.
  destruct s as [|d s]; [discriminate E|].
  destruct (Ascii.eqb c "_" && Ascii.eqb d "_")%bool eqn:B.
  - apply andb_prop in B as [B1 B2]. apply Ascii.eqb_eq in B1, B2. subst. injection E as <- <-. split; [reflexivity|].
    intros x y E. destruct x as [|u [|v x]]; discriminate E.
  - destruct (partition (String d s)) as [a' b'] eqn:P. injection E as <- ->. destruct (IH _ _ eq_refl) as [E1 P1].
    split; [unfold joined in *; cbn [append]; now rewrite E1|].
    intros x y E. destruct x as [|u x].
    + cbn in E. destruct a' as [|v a']; cbn in E.
      * injection E as -> E. unfold joined in E1. cbn in E1. injection E1 as -> E1. discriminate B.
      * injection E as -> -> E. unfold joined in E1. cbn in E1. injection E1 as -> E1. discriminate B.
    + cbn in E. injection E as <- E. exact (P1 _ _ E).
Qed.
Lemma partition_none s a : partition s = (a, None) -> s = a /\ unsplit s.
Proof.
  revert a. induction s as [|c s IH]; intros a E; [injection E as <-; split; [reflexivity|intros [] b E; discriminate E]|]. rewrite partition_eq in E.
  destruct s as [|d s]; [injection E as <-; split; [reflexivity|intros [|x [|y a]] b E; discriminate E]|].
  destruct (Ascii.eqb c "_" && Ascii.eqb d "_")%bool eqn:B; [discriminate E|].
  destruct (partition (String d s)) as [a' b'] eqn:P. injection E as <- ->. destruct (IH _ eq_refl) as [E1 P1].
  split; [now rewrite E1|]. intros [|x u] v E; cbn in E.
  - injection E as -> -> E. discriminate B.
  - injection E as <- E. exact (P1 _ _ E).
Qed.
Lemma partition_unsplit s : unsplit s -> partition s = (s, None).
Proof.
  intros U. destruct (partition s) as [a [b|]] eqn:P.
  - apply partition_some in P as [E _]. now apply U in E.
  - now apply partition_none in P as [<- _].
Qed.
Lemma plain_unsplit n : plain_name n -> unsplit n.
Proof. intros P a b E. apply (P a (b ++ "_")%string). rewrite E. now rewrite !app_assoc'. Qed.
Lemma joined_inj n k n' k' : plain_name n -> plain_name n' -> joined n k = joined n' k' -> n = n' /\ k = k'.
Proof. intros P P' E. apply (f_equal partition) in E. rewrite !partition_plain in E by assumption. injection E; auto. Qed.
Lemma joined_split n k : ~ unsplit (joined n k).
Proof. intros U. now apply (U n k). Qed.
Lemma loggers_unsplit : unsplit "loggers".
Proof. apply (fun H => proj2 (partition_none "loggers" "loggers" H)). reflexivity. Qed.

(* ----- dictionaries ----- *)
Lemma item_put {A} (d : list (string * A)) k v k' : item (put d k v) k' = if String.eqb k k' then Some v else item d k'.
Proof.
  induction d as [|[m w] d IH]; cbn [put item]; [reflexivity|].
  destruct (String.eqb_spec m k) as [->|n]; cbn [item].
  - destruct (String.eqb_spec k k'); [reflexivity|reflexivity].
  - rewrite IH. destruct (String.eqb_spec m k') as [->|n']; [|reflexivity].
    destruct (String.eqb_spec k k'); [congruence|reflexivity].
Qed.
Lemma item_some {A} (d : list (string * A)) k v : item d k = Some v -> In (k, v) d.
Proof.
  induction d as [|[m w] d IH]; cbn [item]; [discriminate|]. destruct (String.eqb_spec m k) as [->|n].
  - intros [= ->]. now left.
  - intros H. right. auto.
Qed.
Lemma item_in {A} (d : list (string * A)) k v : NoDup (map fst d) -> In (k, v) d -> item d k = Some v.
Proof.
  induction d as [|[m w] d IH]; intros N I; [destruct I|]. cbn in N. inversion_clear N as [|? ? N1 N2]. cbn [item].
  destruct I as [[= -> ->]|I]; [now rewrite String.eqb_refl|].
  destruct (String.eqb_spec m k) as [->|n]; [|auto]. exfalso. apply N1. now apply (in_map fst) in I.
Qed.
Lemma item_keys {A} (d : list (string * A)) k : In k (map fst d) <-> exists v, item d k = Some v.
Proof.
  induction d as [|[m w] d IH]; cbn [map fst item]; [split; [intros []|intros [v [=]]]|].
  destruct (String.eqb_spec m k) as [->|n].
  - split; [intros _; now exists w|intros _; now left].
  - rewrite <- IH. split; [intros [E|I]; [contradiction|assumption]|intros I; now right].
Qed.
Lemma put_keys {A} (d : list (string * A)) k v x : In x (map fst (put d k v)) <-> x = k \/ In x (map fst d).
Proof.
  rewrite !item_keys. setoid_rewrite item_put. destruct (String.eqb_spec k x) as [->|n].
  - split; [intros _; now left|intros _; now exists v].
  - split; [intros H; now right|intros [->|H]; [contradiction|assumption]].
Qed.
Lemma put_nodup {A} (d : list (string * A)) k v : NoDup (map fst d) -> NoDup (map fst (put d k v)).
Proof.
  induction d as [|[m w] d IH]; cbn [put map fst]; intros N; [constructor; [intros []|constructor]|].
  inversion_clear N as [|? ? N1 N2]. destruct (String.eqb_spec m k) as [->|n]; cbn [map fst]; [now constructor|].
  constructor; [|auto]. rewrite put_keys. intros [->|I]; [contradiction|contradiction].
Qed.
Lemma put_all_nodup {A} (d' d : list (string * A)) : NoDup (map fst d) -> NoDup (map fst (put_all d d')).
Proof. revert d. induction d' as [|[k v] d' IH]; intros d N; [exact N|]. apply IH. now apply put_nodup. Qed.
Lemma item_put_all {A} (d' d : list (string * A)) k : NoDup (map fst d') ->
  item (put_all d d') k = match item d' k with Some v => Some v | None => item d k end.
Proof.
  revert d. induction d' as [|[m w] d' IH]; intros d N; [reflexivity|]. cbn in N. inversion_clear N as [|? ? N1 N2].
  change (item (put_all (put d m w) d') k = match item ((m, w) :: d') k with Some v => Some v | None => item d k end).
  rewrite IH by assumption. rewrite item_put. cbn [item]. destruct (String.eqb_spec m k) as [->|n]; [|reflexivity].
  destruct (item d' k) as [v|] eqn:E; [|reflexivity]. exfalso. apply N1. apply item_some in E. now apply (in_map fst) in E.
Qed.
Lemma item_map {A B} (f : A -> B) (d : list (string * A)) k : item (map (fun kv => (fst kv, f (snd kv))) d) k = option_map f (item d k).
Proof. induction d as [|[m w] d IH]; cbn; [reflexivity|]. now destruct (String.eqb m k). Qed.
Lemma map_fst_map {A B} (f : A -> B) (d : list (string * A)) : map fst (map (fun kv => (fst kv, f (snd kv))) d) = map fst d.
Proof. rewrite map_map. now apply map_ext. Qed.
Lemma put_split {A} (d : list (string * A)) k v : In k (map fst d) ->
  exists before old after, d = before ++ (k, old) :: after /\ put d k v = before ++ (k, v) :: after.
Proof.
  induction d as [|[m w] d IH]; intros I; [destruct I|]. cbn [put]. destruct (String.eqb_spec m k) as [->|n].
  - now exists [], w, d.
  - destruct I as [E|I]; [contradiction|]. destruct (IH I) as (b & o & a & E1 & E2). exists ((m, w) :: b), o, a. cbn. now rewrite E1 at 1; rewrite E2.
Qed.
Lemma replace_put ms n v : In n (map fst ms) -> replace_first ms n v = put ms n v.
Proof.
  induction ms as [|[m w] ms IH]; intros I; [destruct I|]. cbn [put replace_first]. destruct (String.eqb_spec m n) as [->|e]; [reflexivity|].
  destruct I as [E|I]; [contradiction|]. now rewrite IH.
Qed.

(* ----- get_params ----- *)
Definition walk (f : nat) (h : loggers) : list (string * val) -> list (string * value) -> res (list (string * value)) :=
  fix members (l : list (string * val)) (out : list (string * value)) : res (list (string * value)) :=
    match l with
    | [] => Ok out
    | (n, Prim _) :: l' => members l' out
    | (n, Ref q) :: l' =>
        let? ps := get_params f h (Ref q) in
        members l' (put_all out (map (fun kw => (n ++ "__" ++ fst kw, snd kw))%string ps))
    end.
Definition own (ms : list (string * val)) : list (string * value) :=
  put_all [("loggers"%string, Members ms)] (map (fun nv => (fst nv, One (snd nv))) ms).
Lemma get_combined f h p ms : nth_error h p = Some (Combined ms) -> get_params (S f) h (Ref p) = walk f h ms (own ms).
Proof. intros E. cbn [get_params]. unfold nth_logger. rewrite E. reflexivity. Qed.
Lemma get_simple f h p ps : nth_error h p = Some (Simple ps) -> get_params (S f) h (Ref p) = Ok (map (fun ka => (fst ka, One (Prim (snd ka)))) ps).
Proof. intros E. cbn [get_params]. unfold nth_logger. rewrite E. reflexivity. Qed.
Lemma walk_nodup f h l out out' : NoDup (map fst out) -> walk f h l out = Ok out' -> NoDup (map fst out').
Proof.
  revert out. induction l as [|[n [a|q]] l IH]; intros out N E; cbn in E.
  - injection E as <-. exact N.
  - eauto.
  - destruct (get_params f h (Ref q)) as [ps|e]; [|discriminate E]. cbn in E. eapply IH; [|exact E]. now apply put_all_nodup.
Qed.
Lemma own_nodup ms : NoDup (map fst (own ms)).
Proof. apply put_all_nodup. cbn. constructor; [intros []|constructor]. Qed.
Lemma get_nodup h f v out : orderly h -> get_params f h v = Ok out -> NoDup (map fst out).
Proof.
  intros O. destruct f as [|f]; [discriminate|]. destruct v as [a|p]; [discriminate|].
  destruct (nth_error h p) as [[ps|ms]|] eqn:E.
  - rewrite (get_simple _ _ _ _ E). intros [= <-]. rewrite (map_fst_map (fun a => One (Prim a))). exact (proj1 (O _ _ E)).
  - rewrite (get_combined _ _ _ _ E). intros W. eapply walk_nodup; [apply own_nodup|exact W].
  - cbn [get_params]. unfold nth_logger. rewrite E. discriminate.
Qed.
Lemma prefixed_item n ps key : item (map (fun kw : string * value => (n ++ "__" ++ fst kw, snd kw)%string) ps) key =
  match item (map (fun kw : string * value => (n ++ "__" ++ fst kw, snd kw)%string) ps) key with Some w => Some w | None => None end.
Proof. now destruct (item _ key). Qed.
Lemma prefixed_some n ps key w : item (map (fun kw : string * value => (n ++ "__" ++ fst kw, snd kw)%string) ps) key = Some w <->
  exists k, key = joined n k /\ item ps k = Some w.
Proof.
  induction ps as [|[m u] ps IH]; cbn [map item fst snd]; [split; [discriminate|intros (k & _ & [=])]|].
  destruct (String.eqb_spec (n ++ "__" ++ m) key) as [E|NE].
  - split.
    + intros [= ->]. exists m. now rewrite String.eqb_refl.
    + intros (k & -> & I). unfold joined in E. apply app_inj_l in E. cbn in E. injection E as ->. now rewrite String.eqb_refl in I.
  - rewrite IH. split; intros (k & -> & I); exists k; (split; [reflexivity|]).
    + destruct (String.eqb_spec m k) as [->|]; [now contradiction NE|exact I].
    + destruct (String.eqb_spec m k) as [->|]; [now contradiction NE|exact I].
Qed.
Lemma prefixed_nodup n (ps : list (string * value)) : NoDup (map fst ps) -> NoDup (map fst (map (fun kw : string * value => (n ++ "__" ++ fst kw, snd kw)%string) ps)).
Proof.
  rewrite map_map. cbn [fst]. intros N. rewrite <- (map_map fst (fun k => (n ++ "__" ++ k)%string)).
  apply FinFun.Injective_map_NoDup; [|exact N]. intros x y E. apply app_inj_l in E. cbn in E. now injection E.
Qed.

Lemma listed_simple h p ps k w : nth_error h p = Some (Simple ps) -> listed h (Ref p) k w -> exists a, In (k, a) ps /\ w = One (Prim a).
Proof.
  intros E L. inversion L as [p' o n v E1 I1| p' ms' E1 | p' ms' n v k' w' E1 I1 L1]; subst; rewrite E in E1; try discriminate E1.
  injection E1 as <-. cbn [entries] in I1. apply in_map_iff in I1 as ([k' a] & [= -> <-] & I). now exists a.
Qed.
Lemma listed_combined h p ms k w : nth_error h p = Some (Combined ms) -> listed h (Ref p) k w ->
  (k = "loggers"%string /\ w = Members ms) \/ (exists v, In (k, v) ms /\ w = One v) \/ exists n v k', In (n, v) ms /\ k = joined n k' /\ listed h v k' w.
Proof.
  intros E L. inversion L as [p' o n v E1 I1| p' ms' E1 | p' ms' n v k' w' E1 I1 L1]; subst; rewrite E in E1; injection E1 as <-.
  - right. left. now exists v.
  - now left.
  - right. right. now exists n, v, k'.
Qed.
Section Lists.
Variable h : loggers.
Hypothesis O : orderly h.
Lemma walk_items f : (forall v out, get_params f h v = Ok out -> forall k w, item out k = Some w <-> listed h v k w) ->
  forall l out out', walk f h l out = Ok out' -> NoDup (map fst l) -> Forall plain_name (map fst l) ->
  (forall n k, In n (map fst l) -> item out (joined n k) = None) ->
  forall key w, item out' key = Some w <-> item out key = Some w \/ exists n v k, In (n, v) l /\ key = joined n k /\ listed h v k w.
Proof.
  intros IHf. induction l as [|[n v] l IH]; intros out out' W N P F key w; cbn in W.
  - injection W as <-. split; [now left|intros [E|(n & v & k & [] & _)]; exact E].
  - cbn in N, P. inversion_clear N as [|? ? N1 N2]. inversion_clear P as [|? ? P1 P2]. destruct v as [a|q].
    + rewrite (IH _ _ W N2 P2) by (intros; apply F; now right).
      split; (intros [E|(m & v & k & I & E & L)]; [now left|right]).
      * exists m, v, k. split; [now right|auto].
      * destruct I as [[= <- <-]|I]; [inversion L|]. exists m, v, k. auto.
    + destruct (get_params f h (Ref q)) as [ps|e] eqn:G; [|discriminate W]. cbn in W.
      assert (Np : NoDup (map fst ps)) by exact (get_nodup h f _ _ O G).
      assert (It : forall key w, item (put_all out (map (fun kw : string * value => (n ++ "__" ++ fst kw, snd kw)%string) ps)) key = Some w <->
                               item out key = Some w \/ exists k, key = joined n k /\ listed h (Ref q) k w).
      { intros key' w'. rewrite item_put_all by now apply prefixed_nodup.
        destruct (item (map (fun kw : string * value => (n ++ "__" ++ fst kw, snd kw)%string) ps) key') as [u|] eqn:I.
        - pose proof I as I0. apply prefixed_some in I as (k & -> & I).
          split.
          + intros [= ->]. right. exists k. split; [reflexivity|]. now apply (IHf _ _ G).
          + intros [E|(k' & E & L)]; [rewrite F in E by (now left); discriminate E|].
            unfold joined in E. apply app_inj_l in E. cbn in E. injection E as <-. apply (IHf _ _ G) in L. congruence.
        - split; [now left|]. intros [E|(k & -> & L)]; [exact E|]. exfalso. apply (IHf _ _ G) in L.
          assert (C : item (map (fun kw : string * value => (n ++ "__" ++ fst kw, snd kw)%string) ps) (joined n k) = Some w') by (apply prefixed_some; now exists k).
          congruence. }
      rewrite (IH _ _ W N2 P2).
      * rewrite It. split.
        -- intros [[E|(k & -> & L)]|(m & v & k & I & E & L)]; [now left| |].
           ++ right. exists n, (Ref q), k. split; [now left|auto].
           ++ right. exists m, v, k. split; [now right|auto].
        -- intros [E|(m & v & k & I & E & L)]; [now left; left|]. destruct I as [[= <- <-]|I]; [left; right; now exists k|right; now exists m, v, k].
      * intros m k I. destruct (item (put_all out _) (joined m k)) as [u|] eqn:E; [|reflexivity]. exfalso.
        apply It in E as [E|(k' & E & L)].
        -- rewrite F in E by (now right). discriminate E.
        -- apply joined_inj in E as [-> _]; [now apply N1| |exact P1]. rewrite Forall_forall in P2. auto.
Qed.
Lemma own_items ms key w : NoDup (map fst ms) -> ~ In "loggers"%string (map fst ms) ->
  item (own ms) key = Some w <-> (key = "loggers"%string /\ w = Members ms) \/ exists v, In (key, v) ms /\ w = One v.
Proof.
  intros N NL. unfold own. rewrite item_put_all by now rewrite map_fst_map. rewrite item_map.
  destruct (item ms key) as [v|] eqn:E; cbn [option_map].
  - apply item_some in E as I. split.
    + intros [= <-]. right. now exists v.
    + intros [[-> _]|(v' & I' & ->)]; [exfalso; apply NL; now apply (in_map fst) in I|]. apply item_in in I'; [congruence|exact N].
  - cbn [item]. destruct (String.eqb_spec "loggers" key) as [<-|NE].
    + split; [intros [= <-]; now left|]. intros [[_ ->]|(v & I & _)]; [reflexivity|]. exfalso. apply NL. now apply (in_map fst) in I.
    + split; [discriminate|]. intros [[E' _]|(v & I & _)]; [now contradiction NE|]. apply item_in in I; [congruence|exact N].
Qed.
Lemma get_lists f v out : get_params f h v = Ok out -> forall k w, item out k = Some w <-> listed h v k w.
Proof.
  revert v out. induction f as [|f IH]; intros v out G; [discriminate G|]. destruct v as [a|p]; [discriminate G|].
  destruct (nth_error h p) as [[ps|ms]|] eqn:E.
  - rewrite (get_simple _ _ _ _ E) in G. injection G as <-. destruct (O _ _ E) as [N U]. intros k w.
    rewrite (item_map (fun a => One (Prim a))). destruct (item ps k) as [a|] eqn:I; cbn [option_map].
    + apply item_some in I as I'. split.
      * intros [= <-]. apply (Listed_here _ _ _ _ _ E). cbn [entries]. apply in_map_iff. now exists (k, a).
      * intros L. apply (listed_simple _ _ _ _ _ E) in L as (a' & I2 & ->). apply item_in in I2; [congruence|exact N].
    + split; [discriminate|]. intros L. apply (listed_simple _ _ _ _ _ E) in L as (a' & I2 & ->). apply item_in in I2; [congruence|exact N].
  - rewrite (get_combined _ _ _ _ E) in G. destruct (O _ _ E) as (N & P & NL). intros k w.
    assert (F : forall n k0, In n (map fst ms) -> item (own ms) (joined n k0) = None).
    { intros n k0 I. destruct (item (own ms) (joined n k0)) as [u|] eqn:D; [|reflexivity]. exfalso. apply own_items in D; [|exact N|exact NL].
      destruct D as [[D _]|(v & D & _)].
      - apply (joined_split n k0). rewrite D. apply loggers_unsplit.
      - apply (joined_split n k0). apply plain_unsplit. rewrite Forall_forall in P. apply P. now apply (in_map fst) in D. }
    rewrite (walk_items f IH _ _ _ G N P F). rewrite own_items by assumption. split.
    + intros [[[-> ->]|(v & I & ->)]|(n & v & k0 & I & -> & L)].
      * now apply Listed_all.
      * now apply (Listed_here _ _ _ _ _ E).
      * now apply (Listed_inner _ _ _ _ _ _ _ E I).
    + intros L. apply (listed_combined _ _ _ _ _ E) in L as [[-> ->]|[(v & I & ->)|(n & v & k0 & I & -> & L)]].
      * now left; left.
      * left. right. now exists v.
      * right. now exists n, v, k0.
  - cbn [get_params] in G. unfold nth_logger in G. rewrite E in G. discriminate G.
Qed.
End Lists.
