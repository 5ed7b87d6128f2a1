(* Vocabulary for saved configurations. *)
From Coq Require Import String Ascii.
From Verif Require Import PyNum PyList PyMon M_Json S_Objects.
From Verif Require M_Objects.
Local Open Scope string_scope.

(* an ordinary identifier: no "__" inside, no "_" at either end *)
Definition plain (n : string) : bool :=
  negb (String.eqb n "") && negb (M_Objects.contains "__" n) && negb (String.prefix "_" n) && negb (ends_in_underscore n).
(* a text that reads neither as None nor as a class *)
Definition ordinary (s : string) : bool := negb (String.eqb s "NoneType") && negb (String.prefix "class:" s).
Fixpoint distinct (ns : list string) : bool := match ns with [] => true | n :: ns' => negb (existsb (String.eqb n) ns') && distinct ns' end.

Section Classes.
Variable classes : string -> option cinfo.

(* an object with parameters of its own *)
Definition parametrised (t : tree) : bool :=
  match t with TObj c ps => has_params classes c && match ps with [] => false | _ => true end | _ => false end.
(* following parameters *)
Fixpoint value_at (t : tree) (path : list string) : option tree :=
  match path with
  | [] => Some t
  | n :: path' =>
      match t with
      | TObj c ps => if has_params classes c then match assoc ps n with Some u => value_at u path' | None => None end else None
      | _ => None
      end
  end.
(* the parameters of the object are those of its class; _validate_components left no None behind *)
Definition as_declared (i : cinfo) (ps : list (string * tree)) : bool :=
  M_Objects.list_eqb String.eqb (map fst ps) (map pname (cparams i)) &&
  forallb (fun np => match snd (fst np), pfill (snd np) with TNone, Some _ => false | _, _ => true end) (combine ps (cparams i)).
(* no parameter's name starts with the name of another one that holds an object with parameters *)
Definition no_clash (ps : list (string * tree)) : bool :=
  forallb (fun nu => negb (parametrised (snd nu)) || forallb (fun m => negb (String.prefix (fst nu) m) || String.eqb (fst nu) m) (map fst ps)) ps.
(* a configuration without the oddities that confuse the file format *)
Fixpoint orderly (t : tree) : bool :=
  match t with
  | TPrim (PStr s) => ordinary s
  | TObj c ps =>
      M_Objects.contains "." c && negb (String.eqb c "numpy.ndarray") &&
      match classes c with
      | Some i =>
          negb (component i) ||
          (as_declared i ps && forallb plain (map fst ps) && distinct (map fst ps) && no_clash ps &&
           (fix all (ps : list (string * tree)) := match ps with [] => true | (_, u) :: ps' => orderly u && all ps' end) ps)
      | None => false
      end
  | _ => true
  end.
(* the value is there again: the same number, text or None, an object of the same class *)
Definition again (v : tree) (o : option tree) : Prop :=
  match v with
  | TPrim _ | TNone => o = Some v
  | TObj c _ => parametrised v = true -> exists ps, o = Some (TObj c ps)
  | _ => True
  end.
(* what an omitted argument becomes *)
Definition default_of (p : param) : option tree :=
  match pdefault p with Some TNone => Some (match pfill p with Some d => d | None => TNone end) | o => o end.
(* the same without the contents of arrays *)
Fixpoint forget (t : tree) : tree :=
  match t with
  | TArr _ => TBlank
  | TObj c ps => if has_params classes c then TObj c ((fix go (ps : list (string * tree)) := match ps with [] => [] | (n, u) :: ps' => (n, forget u) :: go ps' end) ps) else t
  | _ => t
  end.
Fixpoint forget_all (ps : list (string * tree)) : list (string * tree) := match ps with [] => [] | (n, u) :: ps' => (n, forget u) :: forget_all ps' end.
(* nothing in the parameters of this object is lost: arrays stand first; objects without parameters of their own are what their class makes
   without arguments, and stand first or are what their parent puts there by itself *)
Fixpoint survives (t : tree) : Prop :=
  match t with
  | TObj c ps =>
      match classes c with
      | None => False
      | Some i =>
          cguard i (forget_all ps) = true /\
          (fix go (first : bool) (ps : list (string * tree)) (qs : list param) :=
             match ps, qs with
             | (n, u) :: ps', p :: qs' =>
                 match u with
                 | TPrim _ | TNone => True
                 | TArr _ | TBlank => first = true
                 | TObj c' _ => if parametrised u then survives u else build classes c' [] = Ok u /\ (first = true \/ default_of p = Some u)
                 end /\ go false ps' qs'
             | _, _ => True
             end) true ps (cparams i)
      end
  | _ => True
  end.
(* the estimator itself: its parameters but the logger are numbers, texts or objects with parameters *)
Definition without_logger (ps : list (string * tree)) (qs : list param) : list (string * option tree) :=
  map (fun np => (fst (fst np), if String.prefix "logger" (fst (fst np)) then default_of (snd np) else Some (forget (snd (fst np))))) (combine ps qs).
Definition survives_at_top (nu : string * tree) (p : param) : Prop :=
  if String.prefix "logger" (fst nu) then default_of p <> None
  else match snd nu with TPrim _ => True | TObj _ _ => parametrised (snd nu) = true /\ survives (snd nu) | _ => False end.
End Classes.
