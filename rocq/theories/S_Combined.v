(* Vocabulary for the parameters of combined loggers. *)
From Coq Require Import String Ascii.
From Verif Require Import PyNum PyList PyMon M_Objects M_Combined.

Definition joined (n k : string) : string := (n ++ "__" ++ k)%string.
(* no "__" inside *)
Definition unsplit (k : string) : Prop := forall a b : string, k <> (a ++ "__" ++ b)%string.
(* no "__" inside, and no "_" at the end *)
Definition plain_name (n : string) : Prop := unsplit (n ++ "_")%string.
Definition well_named (o : logger) : Prop :=
  match o with
  | Simple ps => NoDup (map fst ps) /\ Forall unsplit (map fst ps)
  | Combined ms => NoDup (map fst ms) /\ Forall plain_name (map fst ms) /\ ~ In "loggers"%string (map fst ms)
  end.
Definition orderly (h : loggers) : Prop := forall p o, nth_error h p = Some o -> well_named o.
(* the entries a logger stores itself, by name *)
Definition entries (o : logger) : list (string * val) := match o with Simple ps => map (fun ka => (fst ka, Prim (snd ka))) ps | Combined ms => ms end.
(* the parameters a logger is expected to list *)
Inductive listed (h : loggers) : val -> string -> value -> Prop :=
| Listed_here p o n v : nth_error h p = Some o -> In (n, v) (entries o) -> listed h (Ref p) n (One v)
| Listed_all p ms : nth_error h p = Some (Combined ms) -> listed h (Ref p) "loggers" (Members ms)
| Listed_inner p ms n v k w : nth_error h p = Some (Combined ms) -> In (n, v) ms -> listed h v k w -> listed h (Ref p) (joined n k) w.
(* the key, read from v on, names the entry n of the logger q *)
Inductive leads (h : loggers) : val -> string -> nat -> string -> Prop :=
| Leads_here q o n : nth_error h q = Some o -> In n (map fst (entries o)) -> leads h (Ref q) n q n
| Leads_inner p ms m v k q n : nth_error h p = Some (Combined ms) -> In (m, v) ms -> leads h v k q n -> leads h (Ref p) (joined m k) q n.
Definition same_kind (o o' : logger) : Prop := match o, o' with Simple _, Simple _ | Combined _, Combined _ => True | _, _ => False end.
(* the entry n of q is v now; its place, all other entries and all other loggers are as before *)
Definition reassigned (h h' : loggers) (q : nat) (n : string) (v : val) : Prop :=
  length h' = length h /\ (forall p, p <> q -> nth_error h' p = nth_error h p) /\
  exists o o' before old after, nth_error h q = Some o /\ nth_error h' q = Some o' /\ same_kind o o' /\
    entries o = before ++ (n, old) :: after /\ entries o' = before ++ (n, v) :: after.
(* only members of combined loggers can be other than plain values *)
Definition suits (h : loggers) (q : nat) (v : val) : Prop := forall ps, nth_error h q = Some (Simple ps) -> exists a, v = Prim a.
(* every reference leads to a logger *)
Definition within (h : loggers) (v : val) : Prop := match v with Ref p => (p < length h)%nat | Prim _ => True end.
Definition closed (h : loggers) : Prop := forall p o n v, nth_error h p = Some o -> In (n, v) (entries o) -> within h v.
(* keywords, each with the logger and the parameter it names and the value it is given *)
Definition keyword : Type := string * (nat * string * atom).
Definition target (k : keyword) : nat * string := fst (snd k).
Definition given_as (k : keyword) : string * value := (fst k, One (Prim (snd (snd k)))).
(* the keyword names a parameter of a logger that has no members *)
Definition names_parameter (h : loggers) (v : val) (k : keyword) : Prop :=
  leads h v (fst k) (fst (target k)) (snd (target k)) /\ exists ps, nth_error h (fst (target k)) = Some (Simple ps).
(* exactly the parameters the keywords name have the values given; everything else is as before *)
Definition parameters_set (h h' : loggers) (ks : list keyword) : Prop :=
  length h' = length h /\
  forall p o, nth_error h p = Some o -> exists o', nth_error h' p = Some o' /\ same_kind o o' /\
    Forall2 (fun e e' => fst e' = fst e /\ (forall k, In k ks -> target k = (p, fst e) -> snd e' = Prim (snd (snd k))) /\
                         ((forall k, In k ks -> target k <> (p, fst e)) -> snd e' = snd e)) (entries o) (entries o').
