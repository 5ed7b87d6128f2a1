(* Model of suprb/json.py, first part: the configuration, as written by dump and read back by load.
   The components of an estimator form a tree: what get_params sees of them.  An object that is used in two places appears twice,
   as it does in the file.  Texts in the file that stand for None or for a class are kept apart from other texts (of_string). *)
From Coq Require Import String Ascii.
From Verif Require Import PyNum PyList PyMon.
From Verif Require M_Objects.
Local Open Scope string_scope.

(* values of int, str, bool and float: those json.py:83 lists.  Numpy's numbers are not among the values of this model. *)
Inductive prim : Type := PBool (b : bool) | PInt (z : Z) | PFloat (x : num) | PStr (s : string).
(* a parameter's value: None, an array, an array of no dimension with arbitrary content, an object with its parameters.
   Class names carry the module in front, except for Python's own classes. *)
Inductive tree : Type :=
| TPrim (p : prim)
| TNone
| TArr (rows : list (list Q))
| TBlank
| TObj (c : string) (ps : list (string * tree)).

(* a parameter of __init__: its default, and what _validate_components replaces None by (base.py:22-25) *)
Record param : Type := mkParam { pname : string; pdefault : option tree; pfill : option tree }.
(* a class: has it get_params; its parameters in the order of get_params (sorted); what __init__ asserts about them *)
Record cinfo : Type := mkInfo { component : bool; cparams : list param; cguard : list (string * tree) -> bool }.

(* dict *)
Fixpoint assoc {V} (d : list (string * V)) (k : string) : option V :=
  match d with [] => None | (k', v) :: d' => if String.eqb k' k then Some v else assoc d' k end.
Fixpoint dset {V} (d : list (string * V)) (k : string) (v : V) : list (string * V) :=
  match d with [] => [(k, v)] | (k', v') :: d' => if String.eqb k' k then (k', v) :: d' else (k', v') :: dset d' k v end.
Definition ddel {V} (d : list (string * V)) (k : string) : list (string * V) := filter (fun kv => negb (String.eqb (fst kv) k)) d.

(* what stands in the configuration of the file, or in the dictionary while it is read: a number or text; "NoneType"; "class:" and a name; an object *)
Inductive jv : Type := JPrim (p : prim) | JNone | JClass (c : string) | JObj (t : tree).

(* s.startswith("class:") and the rest *)
Definition after_class (s : string) : option string :=
  if String.prefix "class:" s then Some (String.substring 6 (String.length s - 6) s) else None.
Definition of_string (s : string) : jv :=
  if String.eqb s "NoneType" then JNone else match after_class s with Some c => JClass c | None => JPrim (PStr s) end.
(* the text again *)
Definition as_value (v : jv) : tree :=
  match v with JPrim p => TPrim p | JNone => TPrim (PStr "NoneType") | JClass c => TPrim (PStr ("class:" ++ c)) | JObj t => t end.

(* key.split("__")[:-1] joined by "__" again, 142: what stands before the last "__" that split finds, "" if there is none *)
Fixpoint cut (s : string) : option string :=
  match s with
  | String "_" (String "_" r) => match cut r with Some b => Some ("__" ++ b) | None => Some "" end
  | String c r => match cut r with Some b => Some (String c b) | None => None end
  | EmptyString => None
  end.
Definition base_of (key : string) : string := match cut key with Some b => b | None => "" end.
(* key[key.rfind("__") + 2 :], 171; rfind answers -1 if there is none *)
Fixpoint behind (s : string) : option string :=
  match s with
  | String "_" r => match behind r with Some b => Some b | None => match r with String "_" r' => Some r' | _ => None end end
  | String _ r => behind r
  | EmptyString => None
  end.
Definition param_of (key : string) : string :=
  match behind key with Some b => b | None => match key with String _ r => r | EmptyString => EmptyString end end.

Section Classes.
(* importlib.import_module and getattr: the classes that exist *)
Variable classes : string -> option cinfo.

(* calling a class with keyword arguments *)
Definition build (c : string) (kws : list (string * tree)) : res tree :=
  match classes c with
  | None => Raise ImportError
  | Some i =>
      if negb (forallb (fun kv => existsb (fun p => String.eqb (pname p) (fst kv)) (cparams i)) kws) then Raise TypeError else
      let? ps := rmap (fun p =>
        let? v := match assoc kws (pname p) with Some v => Ok v | None => of_option TypeError (pdefault p) end in
        Ok (pname p, match v, pfill p with TNone, Some d => d | _, _ => v end)) (cparams i) in
      if cguard i ps then Ok (TObj c ps) else Raise AssertionError
  end.

(* sklearn's get_params(deep=True): hasattr(value, "get_params"); nested parameters first, then the object itself *)
Definition has_params (c : string) : bool := match classes c with Some i => component i | None => false end.
Fixpoint get_params (t : tree) : list (string * tree) :=
  match t with
  | TObj c ps =>
      if has_params c then
        (fix go (ps : list (string * tree)) :=
           match ps with
           | [] => []
           | (n, u) :: ps' => app (map (fun kv => (n ++ "__" ++ fst kv, snd kv)) (get_params u)) ((n, u) :: go ps')
           end) ps
      else []
  | _ => []
  end.
(* 73-78 _get_full_class_name: no module in front of Python's own classes *)
Definition class_name (c : string) : jv := if M_Objects.contains "." c then JClass c else of_string c.
(* 81-91 _save_config *)
Definition encode (t : tree) : jv :=
  match t with
  | TPrim (PStr s) => of_string s
  | TPrim p => JPrim p
  | TNone => JNone
  | TArr _ | TBlank => JClass "numpy.ndarray"
  | TObj c _ => class_name c
  end.
Definition save_config (suprb : tree) : list (string * jv) :=
  map (fun kv => (fst kv, encode (snd kv))) (filter (fun kv => negb (String.prefix "logger" (fst kv))) (get_params suprb)).

(* 157-164 _get_class; what is not a text has no replace().  Without a dot there is no module to import. *)
Definition get_class (v : jv) : res string :=
  match v with
  | JClass c => if M_Objects.contains "." c then Ok c else Raise ImportError
  | JPrim (PStr s) => if M_Objects.contains "." s then Ok s else Raise ImportError
  | JNone => Raise ImportError
  | JPrim _ | JObj _ => Raise AttributeError
  end.
Definition instance (c : string) : res tree := let? c := get_class (JClass c) in build c [].
(* 147-154 _update_longest_key; np.ndarray([]) has no dimension *)
Definition update_longest (d : list (string * jv)) (longest : string) : res (list (string * jv)) :=
  let? v := of_option KeyError (assoc d longest) in
  match v with
  | JClass c => if String.eqb c "numpy.ndarray" then Ok (dset d longest (JObj TBlank)) else let? o := instance c in Ok (dset d longest (JObj o))
  | _ => Ok d
  end.
(* 185-191 _get_keys_with_same_base *)
Definition same_base (d : list (string * jv)) (base : string) : list string :=
  filter (fun k => String.prefix base k && negb (String.eqb k base)) (map fst d).
(* 167-182 _update_same_base_keys; an instance made in 176 is deleted in 180 *)
Fixpoint take_params (keys : list string) (params : list (string * tree)) (d : list (string * jv)) : res (list (string * tree) * list (string * jv)) :=
  match keys with
  | [] => Ok (params, d)
  | k :: keys' =>
      let? v := of_option KeyError (assoc d k) in
      let? params' := match v with
                      | JNone => Ok (dset params (param_of k) TNone)
                      | JClass c => let? _ := instance c in Ok params
                      | JPrim p => Ok (dset params (param_of k) (TPrim p))
                      | JObj t => Ok (dset params (param_of k) t)
                      end in
      take_params keys' params' (ddel d k)
  end.
(* one round of the loop in 132-137, with _get_longest_key 140-144 *)
Definition collapse (d : list (string * jv)) : res (list (string * jv)) :=
  let? longest := of_option ValueError (pymax (fun a b => Nat.ltb (M_Objects.count_us a) (M_Objects.count_us b)) (map fst d)) in
  let base := base_of longest in
  let? d := update_longest d longest in
  let? (params, d) := take_params (same_base d base) [] d in
  let? v := of_option KeyError (assoc d base) in
  let? c := get_class v in
  let? o := build c params in
  Ok (dset d base (JObj o)).
(* 132-137 _deserialize_config *)
Fixpoint deserialize (fuel : nat) (d : list (string * jv)) : res (list (string * jv)) :=
  if M_Objects.contains "__" (String.concat "" (map fst d)) then
    match fuel with
    | O => Raise OutOfFuel
    | S fuel' => let? d' := collapse d in deserialize fuel' d'
    end
  else Ok d.
(* 127-129 _load_config; the fuel is the number of keys *)
Definition load_config (d : list (string * jv)) : res tree :=
  let? d' := deserialize (length d) d in
  build "suprb.suprb.SupRB" (map (fun kv => (fst kv, as_value (snd kv))) d').
End Classes.
