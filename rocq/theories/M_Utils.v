(* suprb/utils.py: flatten. *)
From Verif Require Import PyNum PyList PyMon.

(* What flatten meets: an element, a string (or bytes), something iterable with finitely many elements, or a
   zero-dimensional array, which counts as iterable but refuses to be iterated.
   Simplification: endless iterators and lists containing themselves are left out. *)
Inductive obj (A : Type) : Type := Leaf (a : A) | Str (s : A) | Iter (l : list (obj A)) | ZeroDim.
Arguments Leaf {A}. Arguments Str {A}. Arguments Iter {A}. Arguments ZeroDim {A}.

(* a finished generator: what it yielded, and how it ended *)
Definition gen (A : Type) : Type := list A * res unit.
Definition andthen {A} (g h : gen A) : gen A :=
  match snd g with Ok _ => (fst g ++ fst h, snd h) | Raise x => g end.

(* 45-54 flatten; `yield from` *)
Fixpoint flatten {A} (o : obj A) : gen (obj A) :=
  match o with
  | Iter l =>
      (fix go l := match l with
                   | [] => ([], Ok tt)
                   | el :: l' => andthen (match el with
                                          | Leaf _ | Str _ => ([el], Ok tt)
                                          | Iter _ | ZeroDim => flatten el
                                          end) (go l')
                   end) l
  | _ => ([], Raise TypeError)                 (* for el in <not iterable>; a string is never passed by the library *)
  end.
