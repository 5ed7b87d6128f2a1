(* The list operations of Python / numpy that the code uses. *)
From Verif Require Import PyNum.

Section Lists.
Context {A : Type}.

(* itertools.compress(l, selectors): stops with the shorter one *)
Fixpoint compress (l : list A) (g : list bool) : list A :=
  match l, g with
  | x :: l', b :: g' => if b then x :: compress l' g' else compress l' g'
  | _, _ => []
  end.

(* sorted(l): stable insertion sort driven by "less than" only, as Python's sort is.
   [lt a b] means key(a) < key(b).  (For keys containing NaN Python's result depends on the
   algorithm; such lists are outside the model.) *)
Fixpoint insert (lt : A -> A -> bool) (x : A) (l : list A) : list A :=
  match l with
  | [] => [x]
  | y :: l' => if lt y x then y :: insert lt x l' else x :: y :: l'
  end.
Fixpoint sort (lt : A -> A -> bool) (l : list A) : list A :=
  match l with
  | [] => []
  | x :: l' => insert lt x (sort lt l')
  end.
(* sorted(l, reverse=True) keeps the order of equal elements, too *)
Definition sort_desc (lt : A -> A -> bool) (l : list A) : list A := sort (fun a b => lt b a) l.

(* max(l, key=...): the first element no later one exceeds; None models ValueError on [] *)
Definition max_step (lt : A -> A -> bool) (best x : A) : A := if lt best x then x else best.
Definition pymax (lt : A -> A -> bool) (l : list A) : option A :=
  match l with
  | [] => None
  | x :: l' => Some (fold_left (max_step lt) l' x)
  end.

(* l[-n:] with n a non-negative int: -0 is 0, so n = 0 gives the whole list *)
Definition last_n (n : nat) (l : list A) : list A :=
  if Nat.eqb n 0 then l else skipn (length l - n) l.

(* a[i] for a list, negative indices not used here *)
Definition getitem (l : list A) (i : nat) : option A := nth_error l i.

Fixpoint update (l : list A) (i : nat) (x : A) : list A :=
  match l, i with
  | [], _ => []
  | _ :: l', O => x :: l'
  | y :: l', S i' => y :: update l' i' x
  end.
End Lists.

Fixpoint map2 {A B C} (f : A -> B -> C) (l : list A) (m : list B) : list C :=
  match l, m with
  | x :: l', y :: m' => f x y :: map2 f l' m'
  | _, _ => []
  end.

(* element-wise update with access to the index *)
Fixpoint mapi_from {A B} (f : nat -> A -> B) (i : nat) (l : list A) : list B :=
  match l with
  | [] => []
  | x :: l' => f i x :: mapi_from f (S i) l'
  end.
Definition mapi {A B} (f : nat -> A -> B) (l : list A) : list B := mapi_from f 0%nat l.

Fixpoint count_true (g : list bool) : nat :=
  match g with [] => 0%nat | b :: g' => ((if b then 1 else 0) + count_true g')%nat end.
