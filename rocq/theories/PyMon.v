(* Exceptions as values, and a state monad that keeps the state when an exception is raised. *)
From Verif Require Import PyNum.

Inductive exn : Type :=
| ValueError | TypeError | IndexError | AttributeError | AssertionError | KeyError
| ZeroDivisionError | ImportError | NotImplementedError | NotFittedError | RuntimeError
| OutOfFuel       (* a fuelled loop ran out: excluded by the theorems that use one *)
| Dangling        (* an address that was never allocated: cannot happen in Python, excluded by the theorems *)
| NotModelled.    (* an input the model does not cover: no theorem relies on it *)

Inductive res (A : Type) : Type := Ok (a : A) | Raise (e : exn).
Arguments Ok {A} a.
Arguments Raise {A} e.

Definition rbind {A B} (m : res A) (k : A -> res B) : res B :=
  match m with Ok a => k a | Raise e => Raise e end.
Notation "'let?' x ':=' m 'in' k" := (rbind m (fun x => k))
  (at level 200, x pattern, m at level 100, k at level 200, right associativity).

Definition of_option {A} (e : exn) (o : option A) : res A :=
  match o with Some a => Ok a | None => Raise e end.
Definition assert_ (b : bool) : res unit := if b then Ok tt else Raise AssertionError.

Fixpoint rmap {A B} (f : A -> res B) (l : list A) : res (list B) :=
  match l with
  | [] => Ok []
  | x :: l' => let? y := f x in let? ys := rmap f l' in Ok (y :: ys)
  end.

(* stateful computations *)
Definition St (S A : Type) : Type := S -> res A * S.
Definition ret {S A} (a : A) : St S A := fun s => (Ok a, s).
Definition raise {S A} (e : exn) : St S A := fun s => (Raise e, s).
Definition bind {S A B} (m : St S A) (k : A -> St S B) : St S B :=
  fun s => match m s with
           | (Ok a, s') => k a s'
           | (Raise e, s') => (Raise e, s')
           end.
Definition lift {S A} (r : res A) : St S A := fun s => (r, s).
Definition get {S} : St S S := fun s => (Ok s, s).
Definition put {S} (s : S) : St S unit := fun _ => (Ok tt, s).
Notation "'let*' x ':=' m 'in' k" := (bind m (fun x => k))
  (at level 200, x pattern, m at level 100, k at level 200, right associativity).
Notation "m ';;' k" := (bind m (fun _ => k)) (at level 199, right associativity).

(* [f x for x in l] with effects, and for loops *)
Fixpoint mmap {S A B} (f : A -> St S B) (l : list A) : St S (list B) :=
  match l with
  | [] => ret []
  | x :: l' => let* y := f x in let* ys := mmap f l' in ret (y :: ys)
  end.
Fixpoint miter {S A} (f : A -> St S unit) (l : list A) : St S unit :=
  match l with
  | [] => ret tt
  | x :: l' => f x ;; miter f l'
  end.
Fixpoint mrepeat {S} (n : nat) (f : St S unit) : St S unit :=
  match n with
  | O => ret tt
  | Datatypes.S n' => f ;; mrepeat n' f
  end.
