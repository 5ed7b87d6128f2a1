(* Lemmas on texts: prefixes, "__", joining names. *)
From Coq Require Import String Ascii.
From Verif Require Import PyNum PyList PyMon M_Json S_Objects S_Json.
From Verif Require M_Objects.
Local Open Scope string_scope.

Lemma app_nil_r' s : s ++ "" = s.
Proof. induction s as [|c s IH]; cbn; [reflexivity|now rewrite IH]. Qed.
Lemma app_assoc' a b c : (a ++ b) ++ c = a ++ (b ++ c).
Proof. induction a as [|x a IH]; cbn; [reflexivity|now rewrite IH]. Qed.
Lemma prefix_app p s : String.prefix p s = true <-> exists r, s = p ++ r.
Proof.
  revert s. induction p as [|c p IH]; intros s.
  - split; [intros _; now exists s|intros _; now destruct s].
  - destruct s as [|d s]; [split; [discriminate|intros [r [=]]]|].
    cbn [String.prefix append]. destruct (ascii_dec c d) as [->|n].
    + rewrite IH. split; intros [r E]; [exists r; now rewrite E|injection E as E; now exists r].
    + split; [discriminate|intros [r [= E _]]]. congruence.
Qed.
Lemma app_inj_l a b c : a ++ b = a ++ c -> b = c.
Proof. induction a as [|x a IH]; cbn; [trivial|intros [= E]; auto]. Qed.
(* every tail of a plain text keeps: no "__" and no "_" at the end *)
Definition tame (s : string) : Prop := M_Objects.contains "__" s = false /\ ends_in_underscore s = false.
Lemma tame_tail c s : tame (String c s) -> tame s.
Proof.
  intros [A B]. cbn [M_Objects.contains] in A. apply Bool.orb_false_iff in A as [_ A]. split; [exact A|].
  destruct s; [reflexivity|exact B].
Qed.
Lemma tame_under s : ~ tame (String "_" s) \/ exists c s', s = String c s' /\ c <> "_"%char.
Proof.
  destruct s as [|c s]; [left; intros [_ E]; discriminate E|].
  destruct (ascii_dec c "_") as [->|n]; [|right; now exists c, s].
  left. intros [E _]. cbn in E. destruct s; discriminate E.
Qed.
Lemma plain_tame n : plain n = true -> tame n /\ n <> "" /\ String.prefix "_" n = false.
Proof.
  unfold plain. rewrite !Bool.andb_true_iff, !Bool.negb_true_iff. intros [[[A B] C] D].
  repeat split; try assumption. intros ->. discriminate A.
Qed.
(* the first "__" behind tame texts is in the same place *)
Lemma sep_eq a b s t : tame a -> tame b -> a ++ "__" ++ s = b ++ "__" ++ t -> a = b /\ s = t.
Proof.
  revert b. induction a as [|x a IH]; intros b Ta Tb E.
  - destruct b as [|y b]; [injection E as E; auto|]. exfalso. cbn in E. injection E as <- E.
    destruct (tame_under b) as [H|(c & b' & -> & Hc)]; [auto|]. cbn in E. injection E as E _. congruence.
  - destruct b as [|y b].
    + exfalso. cbn in E. injection E as -> E. destruct (tame_under a) as [H|(c & a' & -> & Hc)]; [auto|]. cbn in E. injection E as E _. congruence.
    + cbn in E. injection E as <- E. destruct (IH b (tame_tail _ _ Ta) (tame_tail _ _ Tb) E) as [-> ->]. auto.
Qed.
Lemma sep_none a b s : tame b -> a ++ "__" ++ s <> b.
Proof.
  revert b. induction a as [|x a IH]; intros b Tb E.
  - subst b. destruct (tame_under ("_" ++ s)) as [H|(c & r & [= <- _] & Hc)]; [now apply H|congruence].
  - destruct b as [|y b]; [discriminate E|]. cbn in E. injection E as <- E. now apply (IH b (tame_tail _ _ Tb)).
Qed.
(* a tame text that starts a joined one starts its first name *)
Lemma tame_prefix a b r s : tame a -> a ++ r = b ++ "__" ++ s -> exists r', b = a ++ r'.
Proof.
  revert b. induction a as [|x a IH]; intros b Ta E; [now exists b|].
  destruct b as [|y b].
  - exfalso. cbn in E. injection E as -> E. destruct (tame_under a) as [H|(c & a' & -> & Hc)]; [auto|]. cbn in E. injection E as E _. congruence.
  - cbn in E. injection E as <- E. destruct (IH b (tame_tail _ _ Ta) E) as [r' ->]. now exists r'.
Qed.

(* "__".join(path) *)
Fixpoint join (p : list string) : string :=
  match p with [] => "" | [n] => n | n :: p' => n ++ "__" ++ join p' end.
Lemma join_cons n p : p <> []%list -> join (n :: p) = n ++ "__" ++ join p.
Proof. destruct p; [congruence|reflexivity]. Qed.
Definition plains (p : list string) : Prop := Forall (fun n => plain n = true) p.

(* p starts q up to a start of p's last name *)
Fixpoint starts (p q : list string) : Prop :=
  match p, q with
  | [a], b :: _ => exists r, b = a ++ r
  | a :: p', b :: q' => a = b /\ starts p' q'
  | _, _ => False
  end.
Lemma join_starts p q r : plains p -> plains q -> p <> []%list -> q <> []%list -> join p ++ r = join q -> starts p q.
Proof.
  revert q. induction p as [|a p IH]; intros q Pp Pq Np Nq E; [congruence|].
  destruct q as [|b q]; [congruence|]. inversion Pp as [|? ? Pa Pp']; subst. inversion Pq as [|? ? Pb Pq']; subst.
  apply plain_tame in Pa as (Ta & _). apply plain_tame in Pb as (Tb & _).
  destruct p as [|a' p].
  - cbn [starts]. change (join [a]) with a in E. destruct q as [|b' q]; [cbn in E; now exists r|].
    rewrite join_cons in E by discriminate. exact (tame_prefix _ _ _ _ Ta E).
  - rewrite join_cons in E by discriminate. rewrite !app_assoc' in E.
    destruct q as [|b' q]; [exfalso; exact (sep_none _ _ _ Tb E)|].
    rewrite (join_cons b) in E by discriminate.
    destruct (sep_eq _ _ _ _ Ta Tb E) as [-> E']. split; [reflexivity|].
    apply (IH (b' :: q)%list Pp' Pq'); [discriminate|discriminate|exact E'].
Qed.
Lemma join_inj p q : plains p -> plains q -> p <> []%list -> q <> []%list -> join p = join q -> p = q.
Proof.
  revert q. induction p as [|a p IH]; intros q Pp Pq Np Nq E; [congruence|].
  destruct q as [|b q]; [congruence|]. inversion Pp as [|? ? Pa Pp']; subst. inversion Pq as [|? ? Pb Pq']; subst.
  apply plain_tame in Pa as (Ta & _). apply plain_tame in Pb as (Tb & _).
  destruct p as [|a' p], q as [|b' q].
  - cbn in E. now subst.
  - exfalso. rewrite (join_cons b) in E by discriminate. cbn in E. now apply (sep_none b a (join (b' :: q))).
  - exfalso. rewrite (join_cons a) in E by discriminate. exact (sep_none _ _ _ Tb E).
  - rewrite !join_cons in E by discriminate. destruct (sep_eq _ _ _ _ Ta Tb E) as [-> E'].
    f_equal. apply IH; [assumption|assumption|discriminate|discriminate|exact E'].
Qed.

(* counting, cutting and reading the last name *)
Lemma count_tame a : tame a -> M_Objects.count_us a = 0%nat.
Proof.
  induction a as [|x a IH]; intros T; [reflexivity|]. specialize (IH (tame_tail _ _ T)).
  destruct (ascii_dec x "_") as [->|n].
  - destruct (tame_under a) as [H|(c & a' & -> & Hc)]; [contradiction|].
    destruct c as [[] [] [] [] [] [] [] []]; try exact IH. congruence.
  - destruct x as [[] [] [] [] [] [] [] []]; try exact IH. congruence.
Qed.
Lemma count_sep a s : tame a -> M_Objects.count_us (a ++ "__" ++ s) = S (M_Objects.count_us s).
Proof.
  induction a as [|x a IH]; intros T; [reflexivity|]. specialize (IH (tame_tail _ _ T)).
  destruct (ascii_dec x "_") as [->|n].
  - destruct (tame_under a) as [H|(c & a' & -> & Hc)]; [contradiction|].
    destruct c as [[] [] [] [] [] [] [] []]; try exact IH. congruence.
  - destruct x as [[] [] [] [] [] [] [] []]; try exact IH. congruence.
Qed.
Lemma count_join p : plains p -> M_Objects.count_us (join p) = (length p - 1)%nat.
Proof.
  induction p as [|a p IH]; intros P; [reflexivity|]. inversion P as [|? ? Pa P']; subst. apply plain_tame in Pa as (Ta & _).
  destruct p as [|b p]; [exact (count_tame a Ta)|]. rewrite join_cons by discriminate. rewrite count_sep by exact Ta. rewrite IH by exact P'. cbn. lia.
Qed.
Lemma cut_tame a : tame a -> cut a = None.
Proof.
  induction a as [|x a IH]; intros T; [reflexivity|]. specialize (IH (tame_tail _ _ T)).
  assert (E : cut (String x a) = match cut a with Some b => Some (String x b) | None => None end).
  { destruct (ascii_dec x "_") as [->|n].
    - destruct (tame_under a) as [H|(c & a' & -> & Hc)]; [contradiction|].
      destruct c as [[] [] [] [] [] [] [] []]; try reflexivity. congruence.
    - destruct x as [[] [] [] [] [] [] [] []]; try reflexivity. congruence. }
  now rewrite E, IH.
Qed.
Lemma cut_sep a s : tame a -> cut (a ++ "__" ++ s) = Some (match cut s with Some b => a ++ "__" ++ b | None => a end).
Proof.
  induction a as [|x a IH]; intros T; [cbn; now destruct (cut s)|]. specialize (IH (tame_tail _ _ T)).
  assert (E : cut (String x a ++ "__" ++ s) = match cut (a ++ "__" ++ s) with Some b => Some (String x b) | None => None end).
  { destruct (ascii_dec x "_") as [->|n].
    - destruct (tame_under a) as [H|(c & a' & -> & Hc)]; [contradiction|].
      destruct c as [[] [] [] [] [] [] [] []]; try reflexivity. congruence.
    - destruct x as [[] [] [] [] [] [] [] []]; try reflexivity. congruence. }
  rewrite E, IH. now destruct (cut s).
Qed.
Lemma cut_join p n : plains (p ++ [n]) -> p <> []%list -> cut (join (p ++ [n])) = Some (join p).
Proof.
  induction p as [|a p IH]; intros P N; [congruence|]. cbn [app] in *. inversion P as [|? ? Pa P']; subst. apply plain_tame in Pa as (Ta & _).
  rewrite join_cons by (destruct p; discriminate). rewrite cut_sep by exact Ta.
  destruct p as [|b p].
  - cbn. inversion P' as [|? ? Pn _]; subst. apply plain_tame in Pn as (Tn & _). now rewrite (cut_tame n Tn).
  - rewrite (IH P') by discriminate. now rewrite (join_cons a) by discriminate.
Qed.
Lemma base_join p n : plains (p ++ [n]) -> p <> []%list -> base_of (join (p ++ [n])) = join p.
Proof. intros P N. unfold base_of. now rewrite cut_join. Qed.
Lemma behind_tame a : tame a -> behind a = None.
Proof.
  induction a as [|x a IH]; intros T; [reflexivity|]. specialize (IH (tame_tail _ _ T)).
  destruct (ascii_dec x "_") as [->|n].
  - destruct (tame_under a) as [H|(c & a' & -> & Hc)]; [contradiction|].
    change (match behind (String c a') with Some b => Some b | None => match String c a' with String "_" r' => Some r' | _ => None end end = None).
    rewrite IH. destruct c as [[] [] [] [] [] [] [] []]; try reflexivity. congruence.
  - destruct x as [[] [] [] [] [] [] [] []]; try exact IH. congruence.
Qed.
Lemma behind_more c s b : behind s = Some b -> behind (String c s) = Some b.
Proof. intros E. cbn [behind]. destruct c as [[] [] [] [] [] [] [] []]; rewrite E; reflexivity. Qed.
Lemma behind_sep a n : plain n = true -> behind (a ++ "__" ++ n) = Some n.
Proof.
  intros P. apply plain_tame in P as (T & N & F). induction a as [|x a IH].
  - cbn [append]. assert (E : behind (String "_" n) = None).
    { cbn [behind]. rewrite (behind_tame n T). destruct n as [|c n]; [reflexivity|].
      destruct c as [[] [] [] [] [] [] [] []]; try reflexivity. cbn in F. destruct n; discriminate F. }
    change (match behind (String "_" n) with Some b => Some b | None => Some n end = Some n). now rewrite E.
  - cbn [append]. now apply behind_more.
Qed.
Lemma param_join p n : plain n = true -> p <> []%list -> param_of (join (p ++ [n])) = n.
Proof.
  intros P N. unfold param_of. assert (E : behind (join (p ++ [n])) = Some n); [|now rewrite E].
  induction p as [|a p IH]; [congruence|]. cbn [app]. rewrite join_cons by (destruct p; discriminate).
  destruct p as [|b p]; [apply behind_sep; exact P|].
  specialize (IH ltac:(discriminate)). cbn [app] in *. revert IH. generalize (join (b :: p ++ [n])). intros s E. clear N.
  induction a as [|x a IHa]; [cbn [append]; apply behind_more, behind_more; exact E|]. cbn [append]. apply behind_more. exact IHa.
Qed.

(* "__" in "".join(keys) *)
Lemma contains_app pat a b : M_Objects.contains pat b = true -> M_Objects.contains pat (a ++ b) = true.
Proof. intros E. induction a as [|x a IH]; [exact E|]. cbn [append M_Objects.contains]. rewrite IH. apply Bool.orb_true_r. Qed.
Lemma contains_appl pat a b : M_Objects.contains pat a = true -> M_Objects.contains pat (a ++ b) = true.
Proof.
  induction a as [|x a IH].
  - cbn. destruct pat; [|discriminate]. intros _. now destruct b.
  - cbn [append M_Objects.contains]. rewrite !Bool.orb_true_iff. intros [E|E].
    + left. apply prefix_app in E as [r E]. apply prefix_app. exists (r ++ b). rewrite <- app_assoc', <- E. reflexivity.
    + right. cbn [append]. auto.
Qed.
Lemma concat_app_in k ks : In k ks -> exists a b, String.concat "" ks = a ++ k ++ b.
Proof.
  induction ks as [|k' ks IH]; intros H; [destruct H|]. destruct ks as [|k'' ks].
  - destruct H as [->|[]]. exists "", "". cbn. now rewrite app_nil_r'.
  - change (String.concat "" (k' :: k'' :: ks)) with (k' ++ "" ++ String.concat "" (k'' :: ks)). cbn [append].
    destruct H as [->|H]; [exists "", (String.concat "" (k'' :: ks)); reflexivity|].
    destruct (IH H) as (a & b & ->). exists (k' ++ a), b. now rewrite app_assoc'.
Qed.
Lemma contains_sep a s : M_Objects.contains "__" (a ++ "__" ++ s) = true.
Proof. induction a as [|x a IH]; [now destruct s|]. cbn [append M_Objects.contains]. cbn [append] in IH. rewrite IH. apply Bool.orb_true_r. Qed.
Lemma tame_app_plain a b : tame a -> M_Objects.contains "__" b = false -> String.prefix "_" b = false -> M_Objects.contains "__" (a ++ b) = false.
Proof.
  induction a as [|x a IH]; intros T B P; [exact B|]. specialize (IH (tame_tail _ _ T) B P).
  cbn [append M_Objects.contains]. rewrite IH, Bool.orb_false_r.
  destruct (ascii_dec x "_") as [->|n].
  - destruct (tame_under a) as [H|(c & a' & -> & Hc)]; [contradiction|].
    destruct (String.prefix "__" (String "_" (String c a') ++ b)) eqn:E; [|first [exact E | reflexivity]]. apply prefix_app in E as [r E]. cbn in E. injection E as E _. congruence.
  - destruct (String.prefix "__" (String x (a ++ b))) eqn:E; [|first [exact E | reflexivity]]. apply prefix_app in E as [r E]. cbn in E. injection E as E _. congruence.
Qed.
Lemma concat_plain ks : plains ks -> M_Objects.contains "__" (String.concat "" ks) = false.
Proof.
  induction ks as [|k ks IH]; intros P; [reflexivity|]. inversion P as [|? ? Pk P']; subst. specialize (IH P').
  apply plain_tame in Pk as (T & N & F). destruct ks as [|k' ks]; [exact (proj1 T)|].
  change (String.concat "" (k :: k' :: ks)) with (k ++ "" ++ String.concat "" (k' :: ks)). cbn [append].
  apply tame_app_plain; [exact T|exact IH|].
  inversion P' as [|? ? Pk' _]; subst. apply plain_tame in Pk' as (_ & N' & F').
  destruct k' as [|c k']; [congruence|].
  assert (Hc : c <> "_"%char) by (intros ->; cbn in F'; destruct k'; discriminate F').
  assert (E : exists r, String.concat "" (String c k' :: ks) = String c r) by (destruct ks; [now exists k'|cbn; now eexists]).
  destruct E as [r ->]. destruct (String.prefix "_" (String c r)) eqn:E; [|reflexivity]. apply prefix_app in E as [r' E]. cbn in E. congruence.
Qed.
(* a prefix without "_" *)
Lemma prefix_nil s : String.prefix "" s = true.
Proof. now destruct s. Qed.
Lemma prefix_sep p a s : M_Objects.contains "_" p = false -> String.prefix p (a ++ "__" ++ s) = String.prefix p a.
Proof.
  revert a. induction p as [|c p IH]; intros a E; [now rewrite !prefix_nil|].
  cbn [M_Objects.contains] in E. apply Bool.orb_false_iff in E as [E1 E2].
  destruct a as [|x a].
  - cbn. destruct (ascii_dec c "_") as [->|]; [|reflexivity]. cbn in E1. destruct p; discriminate E1.
  - cbn. destruct (ascii_dec c x); [|reflexivity]. exact (IH a E2).
Qed.
