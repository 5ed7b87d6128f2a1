From Coq Require Import String.
From Verif Require Import PyNum PyList PyMon M_Scores S_Scores.
Local Open Scope string_scope.

(* ----- texts ----- *)
Lemma app_assoc_s (a b c : string) : (a ++ b) ++ c = a ++ b ++ c.
Proof. induction a as [|x a IH]; [reflexivity|]. cbn. rewrite IH. reflexivity. Qed.
Lemma prefix_iff kw s : String.prefix kw s = true <-> exists b, s = kw ++ b.
Proof.
  revert s. induction kw as [|x kw IH]; intros s; [split; [intros _; exists s; reflexivity|destruct s; reflexivity]|]. destruct s as [|y s]; [split; [discriminate|intros (b & H); discriminate]|]. cbn.
  destruct (Ascii.ascii_dec x y) as [->|N]; [|split; [discriminate|intros (b & H); injection H as -> _; congruence]]. rewrite IH. split; intros (b & H); exists b; [rewrite H; reflexivity|injection H as H; exact H].
Qed.
Lemma occurs_iff kw s : occurs kw s = true <-> exists a b, s = a ++ kw ++ b.
Proof.
  induction s as [|x s IH]; cbn [occurs]; rewrite Bool.orb_true_iff, prefix_iff.
  - split; [intros [(b & H)|H]; [exists "", b; exact H|discriminate]|]. intros ([|y a] & b & H); [left; exists b; exact H|discriminate].
  - rewrite IH. split.
    + intros [(b & H)|(a & b & H)]; [exists "", b; exact H|]. exists (String x a), b. rewrite H. reflexivity.
    + intros ([|y a] & b & H); [left; exists b; exact H|]. right. injection H as -> H. exists a, b. exact H.
Qed.
Lemma hidden_iff kws s : existsb (fun kw => occurs kw s) kws = true <-> hidden kws s.
Proof.
  rewrite existsb_exists. split; [intros (kw & H & Ho); apply occurs_iff in Ho as (a & b & E); exists kw, a, b; auto|]. intros (kw & a & b & H & E). exists kw. split; [exact H|]. apply occurs_iff. exists a, b. exact E.
Qed.
Lemma hidden_dec kws s : hidden kws s \/ ~ hidden kws s.
Proof. destruct (existsb (fun kw => occurs kw s) kws) eqn:E; [left; apply hidden_iff; exact E|right]. rewrite <- hidden_iff, E. discriminate. Qed.

(* ----- dictionaries ----- *)
Lemma put_in {A} (d : list (string * A)) k v k' v' : In (k', v') (put d k v) -> In (k', v') d \/ (k' = k /\ v' = v).
Proof.
  induction d as [|[k0 v0] d IH]; cbn; [intros [H|[]]; injection H as -> ->; auto|]. destruct (String.eqb_spec k0 k) as [->|N]; cbn; intros [H|H]; auto; [injection H as -> ->; auto|]. destruct (IH H); auto.
Qed.
Lemma put_has {A} (d : list (string * A)) k v : In (k, v) (put d k v).
Proof. induction d as [|[k0 v0] d IH]; cbn; [auto|]. destruct (String.eqb_spec k0 k) as [->|N]; cbn; auto. Qed.
Lemma put_keeps {A} (d : list (string * A)) k v k' : In k' (map fst d) -> In k' (map fst (put d k v)).
Proof. induction d as [|[k0 v0] d IH]; cbn; [contradiction|]. destruct (String.eqb_spec k0 k) as [->|N]; cbn; intros [H|H]; auto. Qed.
Lemma put_fst {A} (d : list (string * A)) k v k' : In k' (map fst (put d k v)) -> In k' (map fst d) \/ k' = k.
Proof. intros H. apply in_map_iff in H as ([a b] & <- & H). apply put_in in H as [H|[-> _]]; [left; apply in_map_iff; exists (a, b); auto|right; reflexivity]. Qed.
Lemma put_nodup {A} (d : list (string * A)) k v : NoDup (map fst d) -> NoDup (map fst (put d k v)).
Proof.
  induction d as [|[k0 v0] d IH]; cbn; [constructor; [intros []|constructor]|]. intros H. apply NoDup_cons_iff in H as [H1 H2]. destruct (String.eqb_spec k0 k) as [->|N]; cbn; constructor; auto. intros HI. apply put_fst in HI as [HI|HI]; [exact (H1 HI)|congruence].
Qed.
Lemma update_in {A} (o d : list (string * A)) k v : In (k, v) (update d o) -> In (k, v) d \/ In (k, v) o.
Proof. unfold update. revert d. induction o as [|[k0 v0] o IH]; cbn; [auto|]. intros d H. apply IH in H as [H|H]; [|auto]. apply put_in in H as [H|[-> ->]]; auto. Qed.
Lemma update_keeps {A} (o d : list (string * A)) k : In k (map fst d) -> In k (map fst (update d o)).
Proof. unfold update. revert d. induction o as [|[k0 v0] o IH]; cbn; [auto|]. intros d H. apply IH. apply put_keeps. exact H. Qed.
Lemma update_has {A} (o d : list (string * A)) k : In k (map fst o) -> In k (map fst (update d o)).
Proof.
  revert d. induction o as [|[k0 v0] o IH]; cbn; [contradiction|]. intros d [<-|H]; [|apply (IH (put d k0 v0)); exact H]. apply (update_keeps o (put d k0 v0)). apply in_map_iff. exists (k0, v0). split; [reflexivity|apply put_has].
Qed.
Lemma update_nodup {A} (o d : list (string * A)) : NoDup (map fst d) -> NoDup (map fst (update d o)).
Proof. unfold update. revert d. induction o as [|[k0 v0] o IH]; cbn; [auto|]. intros d H. apply IH. apply put_nodup. exact H. Qed.

(* ----- get_params ----- *)
Section ValueInd.
Variable P : value -> Prop.
Hypothesis HP : forall n, P (Plain n).
Hypothesis HO : forall c l, Forall (fun x => P (snd x)) l -> P (Obj c l).
Fixpoint value_nested (v : value) : P v :=
  match v with
  | Plain n => HP n
  | Obj c l => HO c l ((fix go l : Forall (fun x => P (snd x)) l := match l with [] => Forall_nil _ | e :: l' => Forall_cons e (value_nested (snd e)) (go l') end) l)
  end.
End ValueInd.
Definition collect (kws : option (list string)) (prefix : string) : list (string * value) -> list (string * nat) -> res (list (string * nat)) :=
  fix go (attrs : list (string * value)) (params : list (string * nat)) : res (list (string * nat)) :=
    match attrs with
    | [] => Ok params
    | (name, x) :: rest =>
        let? skip := ignored kws name in
        if skip then go rest params
        else match x with
             | Plain n => go rest (put params (prefix ++ name) n)
             | Obj _ _ => let? inner := get_params kws (prefix ++ name ++ "__") x in go rest (update params inner)
             end
    end.
Lemma get_params_obj kws prefix c attrs : get_params kws prefix (Obj c attrs) = collect kws prefix attrs [].
Proof. reflexivity. Qed.
Definition below (attrs : list (string * value)) : value := Obj "" attrs.
Lemma leaf_inv c attrs p n : leaf_at (Obj c attrs) p n -> (exists name, p = [name] /\ In (name, Plain n) attrs) \/ exists name x q, p = name :: q /\ In (name, x) attrs /\ leaf_at x q n.
Proof. intros H. inversion H; subst; [left; eauto|right; eauto 6]. Qed.
Lemma leaf_cons a attrs p n : leaf_at (below (a :: attrs)) p n <-> leaf_at (below [a]) p n \/ leaf_at (below attrs) p n.
Proof.
  unfold below. split; [intros H|intros [H|H]]; apply leaf_inv in H as [(name & -> & HI)|(name & x & q & -> & HI & HL)].
  - destruct HI as [->|HI]; [left; apply leaf_here; left; reflexivity|right; apply leaf_here; exact HI].
  - destruct HI as [->|HI]; [left; eapply leaf_below; [left; reflexivity|exact HL]|right; eapply leaf_below; [exact HI|exact HL]].
  - destruct HI as [->|[]]. apply leaf_here. left. reflexivity.
  - destruct HI as [->|[]]. eapply leaf_below; [left; reflexivity|eassumption].
  - apply leaf_here. right. assumption.
  - eapply leaf_below; [right; eassumption|assumption].
Qed.
Lemma leaf_class c attrs p n : leaf_at (Obj c attrs) p n <-> leaf_at (below attrs) p n.
Proof. split; intros H; inversion H; subst; [apply leaf_here|eapply leaf_below|apply leaf_here|eapply leaf_below]; eassumption. Qed.
Lemma leaf_nonempty v p n : leaf_at v p n -> p <> [].
Proof. intros H. inversion H; discriminate. Qed.
Lemma joined_cons a p : p <> [] -> joined (a :: p) = a ++ "__" ++ joined p.
Proof. destruct p; [congruence|reflexivity]. Qed.
Lemma leaf_one name x p n : leaf_at (below [(name, x)]) p n -> (p = [name] /\ x = Plain n) \/ exists q, p = name :: q /\ leaf_at x q n.
Proof. intros H. apply leaf_inv in H as [(nm & -> & [E|[]])|(nm & y & q & -> & [E|[]] & HL)]; injection E as -> ->; [left; auto|right; eauto]. Qed.

(* what a call with given keywords returns *)
Definition lists (kws : list string) (prefix : string) (v : value) (d : list (string * nat)) : Prop :=
  NoDup (map fst d) /\ (forall k n, In (k, n) d -> exists p, leaf_at v p n /\ visible kws p /\ k = prefix ++ joined p) /\
  (forall p n, leaf_at v p n -> visible kws p -> In (prefix ++ joined p) (map fst d)).
Lemma collect_lists kws prefix attrs : Forall (fun x => match snd x with Plain _ => True | Obj _ _ => forall pre, exists d, get_params (Some kws) pre (snd x) = Ok d /\ lists kws pre (snd x) d end) attrs ->
  forall params, NoDup (map fst params) -> exists d, collect (Some kws) prefix attrs params = Ok d /\ NoDup (map fst d) /\
    (forall k n, In (k, n) d -> In (k, n) params \/ exists p, leaf_at (below attrs) p n /\ visible kws p /\ k = prefix ++ joined p) /\
    (forall k, In k (map fst params) -> In k (map fst d)) /\
    (forall p n, leaf_at (below attrs) p n -> visible kws p -> In (prefix ++ joined p) (map fst d)).
Proof.
  induction 1 as [|[name x] attrs Hx HA IH]; intros params HN; cbn [collect].
  { exists params. split; [reflexivity|]. split; [exact HN|]. split; [auto|]. split; [auto|]. intros p n H. inversion H; subst; contradiction. }
  cbn [ignored rbind]. destruct (existsb (fun kw => occurs kw name) kws) eqn:E.
  - apply hidden_iff in E. destruct (IH params HN) as (d & E1 & A & B & C & D). exists d. split; [exact E1|]. split; [exact A|]. split; [|split; [exact C|]].
    + intros k n H. apply B in H as [H|(p & H1 & H2)]; [auto|]. right. exists p. split; [apply leaf_cons; right; exact H1|exact H2].
    + intros p n H HV. apply leaf_cons in H as [H|H]; [|eapply D; eassumption]. exfalso. apply leaf_one in H as [(-> & _)|(q & -> & _)]; apply Forall_inv in HV; exact (HV E).
  - assert (HH : ~ hidden kws name) by (rewrite <- hidden_iff, E; discriminate). destruct x as [m|c l].
    + destruct (IH (put params (prefix ++ name) m) (put_nodup _ _ _ HN)) as (d & E1 & A & B & C & D). exists d. split; [exact E1|]. split; [exact A|]. split; [|split].
      * intros k n H. apply B in H as [H|(p & H1 & H2)]; [|right; exists p; split; [apply leaf_cons; right; exact H1|exact H2]]. apply put_in in H as [H|[-> ->]]; [auto|].
        right. exists [name]. split; [apply leaf_cons; left; apply leaf_here; left; reflexivity|]. split; [constructor; [exact HH|constructor]|reflexivity].
      * intros k H. apply C. apply put_keeps. exact H.
      * intros p n H HV. apply leaf_cons in H as [H|H]; [|eapply D; eassumption]. apply leaf_one in H as [(-> & _)|(q & -> & H)]; [|inversion H].
        apply C. apply in_map_iff. exists (prefix ++ name, m). split; [reflexivity|apply put_has].
    + cbn [snd] in Hx. destruct (Hx (prefix ++ name ++ "__")) as (i & Ei & I1 & I2 & I3). rewrite Ei. cbn [rbind].
      destruct (IH (update params i) (update_nodup _ _ HN)) as (d & E1 & A & B & C & D). exists d. split; [exact E1|]. split; [exact A|]. split; [|split].
      * intros k n H. apply B in H as [H|(p & H1 & H2)]; [|right; exists p; split; [apply leaf_cons; right; exact H1|exact H2]]. apply update_in in H as [H|H]; [auto|].
        apply I2 in H as (p & H1 & H2 & ->). right. exists (name :: p). split; [apply leaf_cons; left; eapply leaf_below; [left; reflexivity|exact H1]|]. split; [constructor; assumption|].
        rewrite (joined_cons name p (leaf_nonempty _ _ _ H1)), !app_assoc_s. reflexivity.
      * intros k H. apply C. apply update_keeps. exact H.
      * intros p n H HV. apply leaf_cons in H as [H|H]; [|eapply D; eassumption]. apply leaf_one in H as [(-> & H)|(q & -> & H)]; [discriminate|].
        apply C. apply update_has. rewrite (joined_cons name q (leaf_nonempty _ _ _ H)). apply Forall_inv_tail in HV. specialize (I3 q n H HV). rewrite !app_assoc_s in I3. exact I3.
Qed.
Lemma params_lists kws v : match v with Plain _ => True | Obj _ _ => forall pre, exists d, get_params (Some kws) pre v = Ok d /\ lists kws pre v d end.
Proof.
  induction v as [n|c l IH] using value_nested; [exact I|]. intros pre. destruct (collect_lists kws pre l IH [] (NoDup_nil _)) as (d & E & A & B & C & D). exists d. split; [rewrite get_params_obj; exact E|]. split; [exact A|]. split.
  - intros k n H. apply B in H as [[]|(p & H1 & H2 & H3)]. exists p. split; [apply leaf_class; exact H1|auto].
  - intros p n H HV. eapply D; [apply leaf_class in H; exact H|exact HV].
Qed.
Lemma params_of kws c l : exists d, get_params (Some kws) "" (Obj c l) = Ok d /\ NoDup (map fst d) /\
  (forall k n, In (k, n) d -> exists p, leaf_at (Obj c l) p n /\ visible kws p /\ k = joined p) /\ (forall p n, leaf_at (Obj c l) p n -> visible kws p -> exists m, In (joined p, m) d).
Proof.
  destruct (params_lists kws (Obj c l) "") as (d & E & A & B & C). exists d. split; [exact E|]. split; [exact A|]. split; [exact B|]. intros p n H HV. specialize (C p n H HV). apply in_map_iff in C as ([k m] & E1 & E2). exists m. cbn in E1. subst k. exact E2.
Qed.
Lemma params_exact kws c l d : unambiguous kws (Obj c l) -> get_params (Some kws) "" (Obj c l) = Ok d -> forall k n, In (k, n) d <-> exists p, leaf_at (Obj c l) p n /\ visible kws p /\ k = joined p.
Proof.
  intros HU E. destruct (params_of kws c l) as (d' & E' & A & B & C). rewrite E in E'. injection E' as <-. intros k n. split; [apply B|]. intros (p & H1 & H2 & ->). destruct (C p n H1 H2) as (m & Hm). destruct (B _ _ Hm) as (q & Q1 & Q2 & Q3).
  destruct (HU p q n m H1 Q1 H2 Q2 Q3) as [_ ->]. exact Hm.
Qed.
Lemma params_none prefix c l : get_params None prefix (Obj c l) = match l with [] => Ok [] | _ => Raise TypeError end.
Proof. destruct l as [|[name x] l]; reflexivity. Qed.
(* classes are not looked at *)
Lemma params_class kws v : forall pre w, same_attributes v w -> get_params kws pre v = get_params kws pre w.
Proof.
  induction v as [n|c l IH] using value_nested; intros pre w H; inversion H as [|? c' ? l' HF]; subst; [reflexivity|]. rewrite !get_params_obj. clear H. generalize (@nil (string * nat)).
  induction HF as [|[a x] [b y] l l' [H1 H2] HF IHF]; intros params; [reflexivity|]. cbn [fst snd] in *. subst b. apply Forall_cons_iff in IH as [IH1 IH2]. cbn [collect]. destruct (ignored kws a) as [[|]|e]; cbn [rbind]; [apply IHF; exact IH2| |reflexivity].
  cbn [snd] in IH1. inversion H2; subst; [apply IHF; exact IH2|]. rewrite (IH1 _ _ H2). destruct (get_params kws _ _); cbn [rbind]; [apply IHF; exact IH2|reflexivity].
Qed.
Lemma scores_lines c l rest lines : unambiguous score_keywords (Obj c l) -> score_lines "estimator" (Estimators (Obj c l :: rest)) = Ok lines ->
  NoDup (map fst lines) /\ forall k n, In (k, n) lines <-> exists p, leaf_at (Obj c l) p n /\ visible score_keywords p /\ k = joined p /\ ~ hidden score_keywords k.
Proof.
  intros HU H. unfold score_lines in H. cbn [String.eqb Ascii.eqb Bool.eqb] in H. destruct (params_of score_keywords c l) as (d & E & A & B & C). rewrite E in H. cbn [rbind] in H. injection H as <-. split.
  - clear - A. induction d as [|x d IH]; [constructor|]. cbn in A. apply NoDup_cons_iff in A as [A1 A2]. cbn [filter]. destruct (negb _); [|auto]. cbn. constructor; [|auto]. intros H. apply A1. apply in_map_iff in H as (z & H1 & H2). apply filter_In in H2 as [H2 _]. apply in_map_iff. exists z. auto.
  - intros k n. rewrite filter_In. rewrite (params_exact _ _ _ _ HU E). cbn [fst]. rewrite Bool.negb_true_iff. split.
    + intros [(p & H1 & H2 & H3) H4]. exists p. split; [exact H1|]. split; [exact H2|]. split; [exact H3|]. intros Hh. exact (Bool.eq_true_false_abs _ (proj2 (hidden_iff _ _) Hh) H4).
    + intros (p & H1 & H2 & H3 & H4). split; [exists p; auto|]. destruct (existsb (fun kw => occurs kw k) score_keywords) eqn:EE; [|exact EE]. apply hidden_iff in EE. contradiction.
Qed.
