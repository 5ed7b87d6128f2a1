(* Setting parameters of combined loggers; copies. *)
From Coq Require Import String Ascii.
From Verif Require Import PyNum PyList PyMon M_Objects M_Combined S_Combined L_List L_Text L_Combined.
From Coq Require Import Lia.

Lemma walk_members f h l out out' n q : walk f h l out = Ok out' -> In (n, Ref q) l -> exists ps, get_params f h (Ref q) = Ok ps.
Proof.
  revert out. induction l as [|[m [a|r]] l IH]; intros out W I; cbn in W; [destruct I| |].
  - destruct I as [[=]|I]. eauto.
  - destruct (get_params f h (Ref r)) as [ps|e] eqn:G; [|discriminate W]. destruct I as [[= <- <-]|I]; [now exists ps|]. cbn in W. eauto.
Qed.
Definition with_entry (o : logger) (n : string) (x : val) : logger :=
  match o, x with
  | Simple ps, Prim a => Simple (put ps n a)
  | Simple ps, Ref _ => o
  | Combined ms, _ => Combined (put ms n x)
  end.
(* the own parameters of a logger, as base_set in the model *)
Definition base_set (f : nat) (p : nat) (ps : list (string * value)) : St loggers unit :=
  match ps with
  | [] => ret tt
  | _ :: _ =>
      let* h := get in
      let* valid := lift (get_params (S f) h (Ref p)) in
      let* vn := set_each p valid ps [] in
      miter (fun ns => match item (fst vn) (fst ns) with
                       | Some (One c) => set_params f c (snd ns)
                       | _ => raise AttributeError
                       end) (snd vn)
  end.
Lemma set_simple f p ps kws h : nth_error h p = Some (Simple ps) -> set_params (S f) (Ref p) kws h = base_set f p kws h.
Proof. intros E. cbn [set_params]. unfold bind at 1, get at 1. unfold bind at 1, lift at 1, nth_logger at 1. rewrite E. reflexivity. Qed.
(* one keyword other than loggers *)
Lemma set_combined f p ms key w h : nth_error h p = Some (Combined ms) -> key <> "loggers"%string ->
  set_params (S f) (Ref p) [(key, w)] h = (let* ps := replace_members p (map fst ms) [key] [(key, w)] in base_set f p ps) h.
Proof.
  intros E N. cbn [set_params]. unfold bind at 1, get at 1. unfold bind at 1, lift at 1, nth_logger at 1. rewrite E. cbn [of_option item].
  rewrite (proj2 (String.eqb_neq key "loggers") N). unfold bind at 1, ret at 1. unfold bind at 1, get at 1. unfold bind at 1, lift at 1, nth_logger at 1. rewrite E.
  reflexivity.
Qed.
Lemma set_leads h : orderly h -> forall v key q n x, leads h v key q n -> suits h q x -> forall fuel out, get_params fuel h v = Ok out ->
  exists o, nth_error h q = Some o /\ set_params fuel v [(key, One x)] h = (Ok tt, update h q (with_entry o n x)).
Proof.
  intros O v key q n x L. induction L as [q o n E I|p ms m v k q n E I L IH]; intros Su fuel out G.
  - exists o. split; [exact E|]. destruct fuel as [|f]; [discriminate G|]. destruct o as [ps|ms].
    + destruct (Su _ E) as [a ->]. rewrite (set_simple _ _ _ _ _ E). unfold base_set. unfold bind at 1, get at 1. rewrite (get_simple _ _ _ _ E).
      unfold bind at 1, lift at 1. cbn [set_each]. destruct (O _ _ E) as [_ U].
      cbn [entries] in I. rewrite (map_fst_map (fun a => Prim a)) in I. rewrite Forall_forall in U. rewrite (partition_unsplit n) by auto.
      rewrite (item_map (fun a => One (Prim a))). apply item_keys in I as [a0 I]. rewrite I. cbn [option_map].
      unfold set_own. unfold bind, get, lift, nth_logger. rewrite E. reflexivity.
    + destruct (O _ _ E) as (_ & P & NL). cbn [entries] in I. assert (NE : n <> "loggers"%string) by (intros ->; contradiction).
      rewrite (set_combined _ _ _ _ _ _ E NE). cbn [replace_members]. rewrite Forall_forall in P.
      rewrite (partition_unsplit n) by (apply plain_unsplit; auto). cbn [item]. rewrite String.eqb_refl.
      assert (B : existsb (String.eqb n) (map fst ms) = true) by (apply existsb_exists; exists n; now rewrite String.eqb_refl). rewrite B.
      unfold bind at 1. unfold bind at 1, get at 1. unfold bind at 1, lift at 1, nth_logger at 1. rewrite E. cbn [of_option].
      unfold bind at 1, store at 1. unfold without. cbn [filter fst]. rewrite String.eqb_refl. cbn [negb base_set ret]. rewrite replace_put by exact I.
      destruct x; reflexivity.
  - destruct fuel as [|f]; [discriminate G|]. destruct (O _ _ E) as (N & P & NL). rewrite Forall_forall in P.
    assert (Pm : plain_name m) by (apply P; now apply (in_map fst) in I).
    assert (NE : joined m k <> "loggers"%string) by (intros E'; apply (joined_split m k); rewrite E'; apply loggers_unsplit).
    rewrite (set_combined _ _ _ _ _ _ E NE). cbn [replace_members]. rewrite (partition_plain m k Pm).
    unfold bind at 1, ret at 1. unfold base_set. unfold bind at 1, get at 1. rewrite G. unfold bind at 1, lift at 1.
    cbn [set_each]. rewrite (partition_plain m k Pm).
    assert (V : item out m = Some (One v)) by (apply (get_lists h O _ _ _ G); now apply (Listed_here _ _ _ _ _ E)).
    rewrite V. cbn [item M_Combined.put]. unfold bind at 1, ret at 1. cbn [fst snd miter]. rewrite V.
    destruct v as [a|r]; [inversion L|]. rewrite (get_combined _ _ _ _ E) in G. destruct (walk_members _ _ _ _ _ _ _ G I) as [ps Gr].
    destruct (IH Su f ps Gr) as (o & Eq & Es). exists o. split; [exact Eq|]. unfold bind. now rewrite Es.
Qed.
Lemma with_entry_split o n x : In n (map fst (entries o)) -> (forall ps, o = Simple ps -> exists a, x = Prim a) ->
  same_kind o (with_entry o n x) /\ exists before old after, entries o = before ++ (n, old) :: after /\ entries (with_entry o n x) = before ++ (n, x) :: after.
Proof.
  intros I Su. destruct o as [ps|ms].
  - destruct (Su _ eq_refl) as [a ->]. cbn [with_entry entries] in *. split; [exact Logic.I|]. rewrite (map_fst_map (fun a => Prim a)) in I.
    destruct (put_split ps n a I) as (b & old & af & E1 & E2). rewrite E2.
    exists (map (fun ka => (fst ka, Prim (snd ka))) b), (Prim old), (map (fun ka => (fst ka, Prim (snd ka))) af). rewrite E1 at 1. rewrite !map_app. now cbn.
  - cbn [with_entry entries] in *. destruct (put_split ms n x I) as (b & old & af & E1 & E2). destruct x; (split; [exact Logic.I|]); exists b, old, af; auto.
Qed.
Lemma leads_entry h v key q n : leads h v key q n -> exists o, nth_error h q = Some o /\ In n (map fst (entries o)).
Proof. intros L. induction L as [q o n E I|]; [now exists o|assumption]. Qed.
Lemma update_reassigned h q n x o : nth_error h q = Some o -> In n (map fst (entries o)) -> suits h q x -> reassigned h (update h q (with_entry o n x)) q n x.
Proof.
  intros E I Su. split; [apply update_length|]. split; [intros p NE; apply update_nth_other; auto|].
  destruct (with_entry_split o n x I) as (K & b & old & af & E1 & E2); [intros ps ->; exact (Su _ E)|].
  exists o, (with_entry o n x), b, old, af. repeat split; try assumption. apply update_nth_same. apply nth_error_Some. congruence.
Qed.
Lemma sets_exactly h v key q n x fuel out : orderly h -> leads h v key q n -> suits h q x -> get_params fuel h v = Ok out ->
  exists h', set_params fuel v [(key, One x)] h = (Ok tt, h') /\ reassigned h h' q n x.
Proof.
  intros O L Su G. destruct (set_leads h O _ _ _ _ _ L Su _ _ G) as (o & E & Es). rewrite Es. eexists. split; [reflexivity|].
  destruct (leads_entry _ _ _ _ _ L) as (o' & E' & I). rewrite E in E'. injection E' as <-. now apply update_reassigned.
Qed.

(* ----- reading back ----- *)
Lemma reassigned_orderly h h' q n x : orderly h -> reassigned h h' q n x -> orderly h'.
Proof.
  intros O (_ & Oth & o & o' & b & old & af & E & E' & K & E1 & E2) p ob Ep.
  destruct (Nat.eq_dec p q) as [->|NE]; [|rewrite Oth in Ep by exact NE; exact (O _ _ Ep)].
  rewrite E' in Ep. injection Ep as <-. specialize (O _ _ E).
  assert (Names : map fst (entries o') = map fst (entries o)) by (rewrite E1, E2, !map_app; reflexivity).
  destruct o as [ps|ms], o' as [ps'|ms']; try destruct K; cbn [entries well_named] in *.
  - rewrite !(map_fst_map (fun a => Prim a)) in Names. now rewrite Names.
  - now rewrite Names.
Qed.
(* a key cannot come back to where it leads to through the entry it names *)
Lemma get_smaller h v key q n f out : leads h v key q n -> get_params f h v = Ok out -> exists out', get_params f h (Ref q) = Ok out' \/ exists f', (f' < f)%nat /\ get_params f' h (Ref q) = Ok out'.
Proof.
  intros L. revert f out. induction L as [q o n E I|p ms m v k q n E I L IH]; intros f out G; [exists out; now left|].
  destruct f as [|f]; [discriminate G|]. rewrite (get_combined _ _ _ _ E) in G. destruct v as [a|r]; [inversion L|].
  destruct (walk_members _ _ _ _ _ _ _ G I) as [ps Gr]. destruct (IH _ _ Gr) as (out' & [H|(f' & Lt & H)]); exists out'; right; [exists f|exists f']; split; auto; lia.
Qed.
Lemma no_cycle h q ms m v k n f out : nth_error h q = Some (Combined ms) -> In (m, v) ms -> leads h v k q n -> get_params f h (Ref q) = Ok out -> False.
Proof.
  intros E I L. revert out. induction f as [f IH] using lt_wf_ind. intros out G.
  destruct f as [|f]; [discriminate G|]. rewrite (get_combined _ _ _ _ E) in G. destruct v as [a|r]; [inversion L|].
  destruct (walk_members _ _ _ _ _ _ _ G I) as [ps Gr]. destruct (get_smaller _ _ _ _ _ _ _ L Gr) as (out' & [H|(f' & Lt & H)]).
  - exact (IH f ltac:(lia) _ H).
  - exact (IH f' ltac:(lia) _ H).
Qed.
Lemma leads_listed h h' v key q n x : orderly h -> reassigned h h' q n x -> leads h v key q n -> forall f out, get_params f h v = Ok out -> listed h' v key (One x).
Proof.
  intros O R L. induction L as [q o n E I|p ms m v k q n E I L IH]; intros f out G.
  - destruct R as (_ & _ & o1 & o' & b & old & af & _ & E' & _ & _ & E2). apply (Listed_here _ _ _ _ _ E'). rewrite E2. apply in_or_app. right. now left.
  - destruct f as [|f]; [discriminate G|]. pose proof G as G0. rewrite (get_combined _ _ _ _ E) in G. destruct v as [a|r]; [inversion L|].
    destruct (walk_members _ _ _ _ _ _ _ G I) as [ps Gr]. specialize (IH R _ _ Gr).
    destruct (Nat.eq_dec p q) as [->|NE].
    + exfalso. exact (no_cycle _ _ _ _ _ _ _ _ _ E I L G0).
    + destruct R as (_ & Oth & _). apply (Listed_inner h' p ms m (Ref r) k (One x)); [|exact I|exact IH]. now rewrite Oth.
Qed.
Lemma reads_back h v key q n x fuel out h' fuel' out' : orderly h -> leads h v key q n -> suits h q x -> get_params fuel h v = Ok out ->
  set_params fuel v [(key, One x)] h = (Ok tt, h') -> get_params fuel' h' v = Ok out' -> item out' key = Some (One x).
Proof.
  intros O L Su G S G'. destruct (sets_exactly _ _ _ _ _ _ _ _ O L Su G) as (h1 & S1 & R). rewrite S in S1. injection S1 as <-.
  apply (get_lists h' (reassigned_orderly _ _ _ _ _ O R) _ _ _ G'). exact (leads_listed _ _ _ _ _ _ _ O R L _ _ G).
Qed.

(* ----- refusals ----- *)
Lemma unknown_refused h : orderly h -> forall fuel v key w, (forall u, ~ listed h v key u) -> exists e, set_params fuel v [(key, w)] h = (Raise e, h).
Proof.
  intros O. induction fuel as [|f IH]; intros v key w U; [now exists OutOfFuel|]. destruct v as [a|p]; [now exists AttributeError|].
  assert (Base : exists e, base_set f p [(key, w)] h = (Raise e, h)).
  { unfold base_set. unfold bind at 1, get at 1. unfold bind at 1, lift at 1. destruct (get_params (S f) h (Ref p)) as [valid|e] eqn:G; [|now exists e].
    cbn [set_each]. destruct (partition key) as [n [sub|]] eqn:P.
    - apply partition_some in P as [-> P]. destruct (item valid n) as [u|] eqn:V; [|now exists ValueError]. cbn [item M_Combined.put]. unfold bind at 1, ret at 1. cbn [fst snd miter]. rewrite V.
      destruct u as [c|l]; [|now exists AttributeError]. destruct (IH c sub w) as [e Es].
      + intros u L. apply (get_lists h O _ _ _ G) in V. inversion V as [p' o n' v' E1 I1| |p' ms n' v' k' w' E1 I1 L1]; subst.
        * destruct o as [ps|ms]; [cbn [entries] in I1; apply in_map_iff in I1 as ([x a] & [= -> <-] & _); inversion L|].
          apply (U u). now apply (Listed_inner _ _ _ _ _ _ _ E1 I1).
        * assert (Un : unsplit (joined n' k')) by now apply plain_unsplit. now apply joined_split in Un.
      + exists e. unfold bind. now rewrite Es.
    - apply partition_none in P as [<- P]. destruct (item valid key) as [u|] eqn:V; [|now exists ValueError]. exfalso. apply (U u). now apply (get_lists h O _ _ _ G). }
  destruct (nth_error h p) as [[ps|ms]|] eqn:E.
  - rewrite (set_simple _ _ _ _ _ E). exact Base.
  - assert (NE : key <> "loggers"%string) by (intros ->; apply (U (Members ms)); now apply Listed_all).
    rewrite (set_combined _ _ _ _ _ _ E NE). cbn [replace_members].
    assert (R : (match partition key with (_, None) => match item [(key, w)] key with Some w0 => if existsb (String.eqb key) (map fst ms) then (let* h := get in let* o := lift (nth_logger h p) in match o, w0 with Combined ms0, One v => store p (Combined (replace_first ms0 key v)) ;; ret (without [(key, w)] key) | _, _ => raise NotModelled end) else ret [(key, w)] | None => ret [(key, w)] end | _ => ret [(key, w)] end) h = (Ok [(key, w)], h)).
    { destruct (partition key) as [n [sub|]] eqn:P; [reflexivity|]. cbn [item]. rewrite String.eqb_refl.
      destruct (existsb (String.eqb key) (map fst ms)) eqn:B; [|reflexivity]. exfalso. apply existsb_exists in B as (m & I & Em). apply String.eqb_eq in Em as <-.
      apply in_map_iff in I as ([m v] & [= ->] & I). apply (U (One v)). now apply (Listed_here _ _ _ _ _ E). }
    unfold bind at 1. rewrite R. exact Base.
  - exists Dangling. cbn [set_params]. unfold bind at 1, get at 1. unfold bind at 1, lift at 1, nth_logger at 1. now rewrite E.
Qed.

(* ----- copies ----- *)
Lemma within_app h l v : within h v -> within (h ++ l) v.
Proof. destruct v as [a|p]; [trivial|]. cbn. rewrite app_length. lia. Qed.
Lemma listed_app h l : closed h -> forall v key w, within h v -> (listed (h ++ l) v key w <-> listed h v key w).
Proof.
  intros C v key w W. split; intros L.
  - induction L as [p o n v E I|p ms E|p ms n v k w E I L IH]; cbn in W; rewrite nth_error_app1 in E by exact W.
    + now apply (Listed_here _ _ _ _ _ E).
    + now apply Listed_all.
    + apply (Listed_inner _ _ _ _ _ _ _ E I). apply IH. exact (C _ _ _ _ E I).
  - induction L as [p o n v E I|p ms E|p ms n v k w E I L IH]; cbn in W.
    + apply (Listed_here _ p o); [now rewrite nth_error_app1|exact I].
    + apply Listed_all. now rewrite nth_error_app1.
    + apply (Listed_inner _ p ms n v); [now rewrite nth_error_app1|exact I|]. apply IH. exact (C _ _ _ _ E I).
Qed.
Lemma closed_add h o : closed h -> (forall n v, In (n, v) (entries o) -> within h v) -> closed (h ++ [o]).
Proof.
  intros C W p ob n v E I. apply within_app. destruct (Nat.lt_ge_cases p (length h)) as [Lt|Ge].
  - rewrite nth_error_app1 in E by exact Lt. exact (C _ _ _ _ E I).
  - rewrite nth_error_app2 in E by exact Ge. destruct (p - length h)%nat as [|[|]]; cbn in E; try discriminate E. injection E as <-. exact (W _ _ I).
Qed.
(* what a copy shows of plain values *)
Definition alike (h : loggers) (v : val) (h' : loggers) (v' : val) : Prop :=
  (forall key a, listed h' v' key (One (Prim a)) <-> listed h v key (One (Prim a))) /\ (forall a, v' = Prim a <-> v = Prim a).
Definition copied (h : loggers) (v : val) (h' : loggers) (v' : val) : Prop :=
  (exists l, h' = h ++ l) /\ closed h' /\ within h' v' /\ (forall p, v' = Ref p -> (length h <= p)%nat) /\ alike h v h' v'.
Lemma alike_app h v h' v' l : closed h' -> within h' v' -> alike h v h' v' -> alike h v (h' ++ l) v'.
Proof. intros C W [A B]. split; [|exact B]. intros key a. rewrite listed_app by assumption. apply A. Qed.
Lemma alike_from h l v h' v' : closed h -> within h v -> alike (h ++ l) v h' v' -> alike h v h' v'.
Proof. intros C W [A B]. split; [|exact B]. intros key a. rewrite A. now apply listed_app. Qed.
Definition member_copied (h : loggers) (h' : loggers) (nv nv' : string * val) : Prop :=
  fst nv' = fst nv /\ within h' (snd nv') /\ (forall p, snd nv' = Ref p -> (length h <= p)%nat) /\ alike h (snd nv) h' (snd nv').
Lemma members_copied (F : val -> St loggers val) h0 : closed h0 ->
  (forall h v v' h', closed h -> within h v -> F v h = (Ok v', h') -> copied h v h' v') ->
  forall ms l ms' h', (forall n v, In (n, v) ms -> within h0 v) -> closed (h0 ++ l) ->
  mmap (fun nv => let* w := F (snd nv) in ret (fst nv, w)) ms (h0 ++ l) = (Ok ms', h') ->
  (exists l', h' = (h0 ++ l) ++ l') /\ closed h' /\ map fst ms' = map fst ms /\ Forall2 (member_copied h0 h') ms ms'.
Proof.
  intros C0 HF. induction ms as [|[n v] ms IH]; intros l ms' h' W C M; cbn [mmap] in M.
  - injection M as <- <-. split; [exists []; now rewrite app_nil_r|]. repeat split; [exact C|constructor].
  - unfold bind at 1 in M. unfold bind at 1 in M. cbn [fst snd] in M. destruct (F v (h0 ++ l)) as [[v'|e] h1] eqn:Fv; [|discriminate M].
    cbn [ret] in M. unfold bind at 1 in M.
    assert (Wv : within h0 v) by (apply (W n); now left).
    destruct (HF _ _ _ _ C (within_app _ _ _ Wv) Fv) as ((l1 & ->) & C1 & W1 & N1 & A1). rewrite <- (app_assoc h0 l l1) in *.
    match type of M with context [mmap ?g ms ?s] => destruct (mmap g ms s) as [[ms1|e] h2] eqn:M1 end; [|discriminate M]. injection M as <- <-.
    destruct (IH _ _ _ (fun m u I => W m u (or_intror I)) C1 M1) as ((l2 & E2) & C2 & Nm & Fa).
    split; [exists (l1 ++ l2); now rewrite E2, <- !app_assoc|]. split; [exact C2|]. split; [cbn; now rewrite Nm|]. constructor; [|exact Fa].
    rewrite E2. split; [reflexivity|]. cbn [fst snd]. split; [now apply within_app|]. split; [intros p Ep; specialize (N1 p Ep); rewrite app_length in N1; lia|].
    apply alike_app; [exact C1|exact W1|]. apply (alike_from h0 l); assumption.
Qed.
Lemma Forall2_member h h' ms ms' : Forall2 (member_copied h h') ms ms' ->
  (forall n v, In (n, v) ms -> exists v', In (n, v') ms' /\ member_copied h h' (n, v) (n, v')) /\
  (forall n v', In (n, v') ms' -> exists v, In (n, v) ms /\ member_copied h h' (n, v) (n, v')).
Proof.
  intros F. induction F as [|[n v] [n' v'] ms ms' M F [IH1 IH2]]; [split; intros ? ? []|].
  pose proof (proj1 M) as E. cbn in E. subst n'. split; intros m u [[= <- <-]|I].
  - exists v'. split; [now left|exact M].
  - destruct (IH1 _ _ I) as (x & Ix & Mx). exists x. split; [now right|exact Mx].
  - exists v. split; [now left|exact M].
  - destruct (IH2 _ _ I) as (x & Ix & Mx). exists x. split; [now right|exact Mx].
Qed.
Lemma nth_error_last {A} (l : list A) x : nth_error (l ++ [x]) (length l) = Some x.
Proof. rewrite nth_error_app2 by lia. now rewrite Nat.sub_diag. Qed.
Lemma copy_copied fuel : forall h v v' h', closed h -> within h v -> copy fuel v h = (Ok v', h') -> copied h v h' v'.
Proof.
  induction fuel as [|f IH]; intros h v v' h' C W E; [discriminate E|]. destruct v as [a|p].
  - injection E as <- <-. split; [exists []; now rewrite app_nil_r|]. split; [exact C|]. split; [exact W|]. split; [intros p [=]|]. split; [|tauto].
    intros key b. split; intros L; inversion L.
  - cbn [copy] in E. unfold bind at 1, get at 1 in E. unfold bind at 1, lift at 1, nth_logger at 1 in E.
    destruct (nth_error h p) as [[ps|ms]|] eqn:Ep; cbn [of_option] in E; [| |discriminate E].
    + injection E as <- <-. split; [now exists [Simple ps]|]. split.
      { apply closed_add; [exact C|]. cbn [entries]. intros n v I. apply in_map_iff in I as ([k a] & [= <- <-] & _). exact Logic.I. }
      split; [cbn; rewrite app_length; cbn; lia|]. split; [intros q [= <-]; lia|]. split; [|split; intros [=]].
      intros key a. split; intros L.
      * apply (listed_simple _ _ ps) in L as (b & I & [= ->]); [|apply nth_error_last]. apply (Listed_here _ _ _ _ _ Ep). cbn [entries]. apply in_map_iff. now exists (key, b).
      * apply (listed_simple _ _ _ _ _ Ep) in L as (b & I & [= ->]). apply (Listed_here _ _ (Simple ps)); [apply nth_error_last|]. cbn [entries]. apply in_map_iff. now exists (key, b).
    + unfold bind at 1 in E. match type of E with context [mmap ?g ms ?s] => destruct (mmap g ms s) as [[ms'|e] h1] eqn:M end; [|discriminate E]. injection E as <- <-.
      assert (Wm : forall n v, In (n, v) ms -> within h v) by (intros n v I; exact (C _ _ _ _ Ep I)).
      destruct (members_copied (copy f) h C IH ms [] ms' h1) as ((l1 & E1) & C1 & Nm & Fa); [exact Wm|now rewrite app_nil_r|now rewrite app_nil_r|].
      rewrite app_nil_r in E1. destruct (Forall2_member _ _ _ _ Fa) as [F1 F2].
      assert (Wm' : forall n v, In (n, v) ms' -> within h1 v) by (intros n v I; destruct (F2 _ _ I) as (u & _ & (_ & Wu & _)); exact Wu).
      split; [exists (l1 ++ [Combined ms']); now rewrite E1, <- app_assoc|]. split; [now apply closed_add|].
      split; [cbn; rewrite app_length; cbn; lia|]. split; [intros q [= <-]; rewrite E1, app_length; lia|]. split; [|split; intros [=]].
      intros key a. split; intros L.
      * apply (listed_combined _ _ ms') in L as [[_ [=]]|[(v & I & [= <-])|(n & v & k & I & -> & L)]]; [| |apply nth_error_last].
        -- destruct (F2 _ _ I) as (u & Iu & (_ & _ & _ & [_ B])). cbn in B. assert (u = Prim a) by now apply B. subst u. now apply (Listed_here _ _ _ _ _ Ep).
        -- destruct (F2 _ _ I) as (u & Iu & (_ & Wu & _ & [A _])). apply (Listed_inner _ _ _ _ _ _ _ Ep Iu). cbn in A. apply A.
           apply (listed_app h1 [Combined ms'] C1) in L; [exact L|exact Wu].
      * apply (listed_combined _ _ _ _ _ Ep) in L as [[_ [=]]|[(v & I & [= <-])|(n & v & k & I & -> & L)]].
        -- destruct (F1 _ _ I) as (u & Iu & (_ & _ & _ & [_ B])). cbn in B. assert (u = Prim a) by now apply B. subst u. apply (Listed_here _ _ (Combined ms')); [apply nth_error_last|exact Iu].
        -- destruct (F1 _ _ I) as (u & Iu & (_ & Wu & _ & [A _])). apply (Listed_inner _ _ ms' n u k); [apply nth_error_last|exact Iu|]. apply (listed_app h1 [Combined ms'] C1); [exact Wu|].
           cbn in A. now apply A.
Qed.
Lemma init_copies fuel ms h b ms' h' : closed h -> (forall n v, In (n, v) ms -> within h v) -> log_init fuel ms h = (Ok (b, ms'), h') ->
  b = false /\ (exists l, h' = h ++ l) /\ map fst ms' = map fst ms /\
  forall n v', In (n, v') ms' -> exists v, In (n, v) ms /\ (forall p, v' = Ref p -> (length h <= p)%nat) /\ forall key a, listed h' v' key (One (Prim a)) <-> listed h v key (One (Prim a)).
Proof.
  intros C W E. unfold log_init in E. unfold bind at 1, get at 1 in E. unfold bind at 1 in E.
  match type of E with context [mmap ?g ms ?s] => destruct (mmap g ms s) as [[ms1|e] h1] eqn:M end; [|discriminate E]. injection E as <- <- <-.
  assert (Wn : warns h ms = false) by (unfold warns; clear; induction ms as [|nv ms IH]; [reflexivity|exact IH]).
  destruct (members_copied (copy_member fuel) h C) with (ms := ms) (l := @nil logger) (ms' := ms1) (h' := h1) as ((l1 & E1) & C1 & Nm & Fa).
  - intros h0 v v' h' C0 W0 E0. destruct v as [a|p]; [discriminate E0|]. now apply (copy_copied fuel).
  - exact W.
  - now rewrite app_nil_r.
  - now rewrite app_nil_r.
  - rewrite app_nil_r in E1. split; [exact Wn|]. split; [now exists l1|]. split; [exact Nm|].
    intros n v' I. destruct (proj2 (Forall2_member _ _ _ _ Fa) _ _ I) as (v & Iv & (_ & _ & N & [A _])). exists v. auto.
Qed.
