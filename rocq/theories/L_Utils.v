From Verif Require Import PyNum PyList PyMon M_Utils S_Utils.
From Coq Require Import Sorting.Sorted.

Section ObjInd.
Variable A : Type.
Variable P : obj A -> Prop.
Hypothesis HL : forall a, P (Leaf a).
Hypothesis HS : forall a, P (Str a).
Hypothesis HZ : P ZeroDim.
Hypothesis HI : forall l, Forall P l -> P (Iter l).
Fixpoint obj_nested (o : obj A) : P o :=
  match o with
  | Leaf a => HL a | Str a => HS a | ZeroDim => HZ
  | Iter l => HI l ((fix go l : Forall P l := match l with [] => Forall_nil P | e :: l' => Forall_cons e (obj_nested e) (go l') end) l)
  end.
End ObjInd.

Section Flatten.
Context {A : Type}.
Implicit Types o : obj A.

(* what one element contributes *)
Definition part (el : obj A) : gen (obj A) :=
  match el with Leaf _ | Str _ => ([el], Ok tt) | Iter _ | ZeroDim => flatten el end.
Fixpoint parts (l : list (obj A)) : gen (obj A) :=
  match l with [] => ([], Ok tt) | el :: l' => andthen (part el) (parts l') end.
Lemma flatten_iter l : flatten (Iter l) = parts l.
Proof. cbn. induction l as [|e l IH]; [reflexivity|]. cbn. rewrite IH. destruct e; reflexivity. Qed.

Definition good (o : obj A) (g : gen (obj A)) : Prop :=
  exists paths, reads o paths (fst g) /\
    match snd g with
    | Ok _ => (forall p e, at_path p o = Some e -> element e -> In p paths) /\ (forall p, at_path p o <> Some ZeroDim)
    | Raise x => x = TypeError /\ exists q, at_path q o = Some ZeroDim /\ (forall p, In p paths -> left_of p q) /\
                   (forall p e, at_path p o = Some e -> element e -> left_of p q -> In p paths) /\
                   (forall p, at_path p o = Some ZeroDim -> p = q \/ left_of q p)
    end.

Lemma sorted_map i ps : StronglySorted left_of ps -> StronglySorted left_of (map (cons i) ps).
Proof.
  induction 1 as [|p ps H IH HF]; cbn; constructor; [assumption|]. rewrite Forall_map. revert HF. apply Forall_impl. intros q Hq. right. split; [reflexivity|exact Hq].
Qed.
Lemma sorted_app_ ps qs : StronglySorted left_of ps -> StronglySorted left_of qs -> (forall p q, In p ps -> In q qs -> left_of p q) -> StronglySorted left_of (ps ++ qs).
Proof.
  induction 1 as [|p ps H IH HF]; intros Hq Hc; cbn; [assumption|]. constructor; [apply IH; [assumption|intros a b Ha Hb; apply Hc; [right; exact Ha|exact Hb]]|].
  rewrite Forall_app. split; [assumption|]. apply Forall_forall. intros q Hq'. apply Hc; [left; reflexivity|assumption].
Qed.
Definition bump (p : list nat) : list nat := match p with [] => [] | i :: p' => S i :: p' end.
Lemma left_bump p q : left_of p q -> left_of (bump p) (bump q).
Proof. destruct p as [|i p], q as [|j q]; cbn; try tauto. intros [H|[H1 H2]]; [left; lia|right; split; [lia|assumption]]. Qed.
Lemma bump_inj_left p q : left_of (bump p) (bump q) -> left_of p q.
Proof. destruct p as [|i p], q as [|j q]; cbn; try tauto. intros [H|[H1 H2]]; [left; lia|right; split; [lia|assumption]]. Qed.
Lemma sorted_bump ps : StronglySorted left_of ps -> StronglySorted left_of (map bump ps).
Proof. induction 1 as [|p ps H IH HF]; cbn; constructor; [assumption|]. rewrite Forall_map. revert HF. apply Forall_impl. intros q. apply left_bump. Qed.

Lemma at_cons_0 (e : obj A) l p : at_path (0%nat :: p) (Iter (e :: l)) = at_path p e.
Proof. reflexivity. Qed.
Lemma at_bump (e : obj A) l i p : at_path (S i :: p) (Iter (e :: l)) = at_path (i :: p) (Iter l).
Proof. reflexivity. Qed.

Lemma good_nil : good (Iter []) ([], Ok tt).
Proof.
  exists []. split; [split; [constructor|constructor]|]. cbn. split.
  - intros [|i p] e H HE; cbn in H; [inversion H; subst; destruct HE|destruct i; discriminate].
  - intros [|i p] H; cbn in H; [discriminate|destruct i; discriminate].
Qed.

Lemma good_cons e l (g h : gen (obj A)) : good e g -> good (Iter l) h -> good (Iter (e :: l)) (andthen g h).
Proof.
  intros (ps & (S1 & F1) & C1) (qs & (S2 & F2) & C2). unfold andthen. destruct g as [ga gr], h as [ha hr]; cbn [fst snd] in *.
  destruct gr as [[]|x].
  - destruct C1 as [C1 Z1].
    assert (NE : forall q, In q qs -> exists j q', q = j :: q').
    { intros q Hq. destruct q as [|j q']; [|exists j, q'; reflexivity]. exfalso.
      clear - F2 Hq. induction F2 as [|q e' qs es [H1 H2] _ IH]; [destruct Hq|]. destruct Hq as [->|Hq]; [cbn in H1; inversion H1; subst; destruct H2|exact (IH Hq)]. }
    exists (map (cons 0%nat) ps ++ map bump qs). cbn [fst snd]. split.
    + split.
      * apply sorted_app_; [apply sorted_map; assumption|apply sorted_bump; assumption|].
        intros p q Hp Hq. apply in_map_iff in Hp. destruct Hp as (p' & <- & Hp). apply in_map_iff in Hq. destruct Hq as (q' & <- & Hq).
        destruct (NE _ Hq) as (j & q'' & ->). cbn. left. lia.
      * apply Forall2_app.
        -- clear - F1. induction F1 as [|p a ps as_ [H1 H2] _ IH]; cbn; constructor; [split; [exact H1|exact H2]|exact IH].
        -- clear - F2. induction F2 as [|q a qs as_ [H1 H2] _ IH]; cbn; constructor; [split; [|exact H2]|exact IH].
           destruct q as [|j q]; [cbn in H1; inversion H1; subst; destruct H2|exact H1].
    + destruct hr as [[]|x].
      * destruct C2 as [C2 Z2]. split.
        -- intros p a Ha He. apply in_or_app. destruct p as [|[|i] p].
           ++ cbn in Ha. inversion Ha; subst. destruct He.
           ++ left. apply in_map. exact (C1 _ _ Ha He).
           ++ right. rewrite at_bump in Ha. apply (in_map bump) with (x := i :: p). exact (C2 _ _ Ha He).
        -- intros p Hp. destruct p as [|[|i] p]; [discriminate|exact (Z1 _ Hp)|exact (Z2 (i :: p) Hp)].
      * destruct C2 as (-> & q & Hq & HL & HC & HZ). split; [reflexivity|]. destruct q as [|j q]; [discriminate|].
        exists (S j :: q). split; [exact Hq|]. split; [|split].
        -- intros p Hp. apply in_app_or in Hp. destruct Hp as [Hp|Hp]; apply in_map_iff in Hp; destruct Hp as (p' & <- & Hp).
           ++ left. lia.
           ++ apply (left_bump p' (j :: q)). apply HL. exact Hp.
        -- intros p a Ha He Hl. apply in_or_app. destruct p as [|[|i] p].
           ++ destruct Hl.
           ++ left. apply in_map. exact (C1 _ _ Ha He).
           ++ right. rewrite at_bump in Ha. apply (in_map bump) with (x := i :: p). apply (HC _ _ Ha He). apply bump_inj_left. exact Hl.
        -- intros p Hp. destruct p as [|[|i] p]; [discriminate|exfalso; exact (Z1 _ Hp)|].
           destruct (HZ (i :: p) Hp) as [E|Hl]; [left; inversion E; reflexivity|right; apply (left_bump (j :: q) (i :: p)); exact Hl].
  - destruct C1 as (-> & q & Hq & HL & HC & HZ). exists (map (cons 0%nat) ps). cbn [fst snd]. split.
    + split; [apply sorted_map; assumption|]. clear - F1. induction F1 as [|p a ps as_ [H1 H2] _ IH]; cbn; constructor; [split; [exact H1|exact H2]|exact IH].
    + split; [reflexivity|]. exists (0%nat :: q). split; [exact Hq|]. split; [|split].
      * intros p Hp. apply in_map_iff in Hp. destruct Hp as (p' & <- & Hp). right. split; [reflexivity|apply HL; exact Hp].
      * intros p a Ha He Hl. destruct p as [|[|i] p]; [destruct Hl| |cbn in Hl; destruct Hl as [Hl|[Hl _]]; lia].
        apply in_map. destruct Hl as [Hl|[_ Hl]]; [lia|]. exact (HC _ _ Ha He Hl).
      * intros p Hp. destruct p as [|[|i] p]; [discriminate| |right; left; lia].
        destruct (HZ p Hp) as [->|Hl]; [left; reflexivity|right; right; split; [reflexivity|exact Hl]].
Qed.

Lemma good_leaf (e : obj A) : element e -> good e ([e], Ok tt).
Proof.
  intros He. exists [[]]. split; [split; [constructor; constructor|constructor; [split; [reflexivity|exact He]|constructor]]|]. cbn [fst snd]. split.
  - intros [|i p] a Ha Hea; [left; reflexivity|]. destruct e; [discriminate|discriminate|destruct He|destruct He].
  - intros [|i p] H; [inversion H; subst; destruct He|]. destruct e; [discriminate|discriminate|destruct He|destruct He].
Qed.
Lemma good_zero : good ZeroDim ([], Raise TypeError).
Proof.
  exists []. split; [split; constructor|]. split; [reflexivity|]. exists []. split; [reflexivity|]. split; [intros p []|]. split.
  - intros [|i p] e H He Hl; [destruct Hl|discriminate].
  - intros [|i p] H; [left; reflexivity|discriminate].
Qed.
Lemma part_good (e : obj A) : good e (part e).
Proof.
  induction e as [a|a| |l IH] using obj_nested; cbn [part].
  - apply good_leaf; exact I.
  - apply good_leaf; exact I.
  - apply good_zero.
  - rewrite flatten_iter. induction IH as [|e l He _ IHl]; [exact good_nil|]. cbn [parts]. apply good_cons; assumption.
Qed.
Lemma flatten_good l : good (Iter l) (flatten (Iter l)).
Proof. exact (part_good (Iter l)). Qed.

Lemma flatten_lists (ll : list (list A)) : flatten (Iter (map (fun l => Iter (map Leaf l)) ll)) = (map Leaf (concat ll), Ok tt).
Proof.
  rewrite flatten_iter. induction ll as [|l ll IH]; [reflexivity|]. cbn [map parts part concat]. rewrite IH, flatten_iter.
  assert (E : parts (map Leaf l) = (map Leaf l, Ok tt)).
  { clear. induction l as [|a l IH]; [reflexivity|]. cbn. rewrite IH. reflexivity. }
  rewrite E. unfold andthen. cbn. rewrite map_app. reflexivity.
Qed.
End Flatten.
