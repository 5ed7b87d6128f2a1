(* Objects, attributes and parameters: the part of Python and of sklearn.base (1.0) that suprb/wrapper.py and the preparation
   of components in suprb/suprb.py rely on; suprb/base.py, suprb/optimizer/rule/generation_operator.py and
   suprb/rule/initialization.py for the attribute matching_type. *)
From Coq Require Import String Ascii.
From Verif Require Import PyNum PyList PyMon.

(* immutable values; contents of an array are one value *)
Inductive atom : Type := ANone | ABool (b : bool) | AInt (z : Z) | AFloat (x : num) | AStr (s : string) | AMember (s : string) | AData (rows : list (list Q)).
Inductive val : Type := Prim (a : atom) | Ref (p : nat).
Record object : Type := mkObject { cls : string; fields : list (string * val) }.
Definition heap : Type := list object.

Fixpoint field (fs : list (string * val)) (n : string) : option val :=
  match fs with [] => None | (m, v) :: fs' => if String.eqb m n then Some v else field fs' n end.
Fixpoint set_field (fs : list (string * val)) (n : string) (v : val) : list (string * val) :=
  match fs with [] => [(n, v)] | (m, w) :: fs' => if String.eqb m n then (m, v) :: fs' else (m, w) :: set_field fs' n v end.
Definition lookup (h : heap) (p : nat) : res object := of_option Dangling (nth_error h p).
Definition write (h : heap) (p : nat) (n : string) (v : val) : heap :=
  match nth_error h p with Some o => update h p (mkObject (cls o) (set_field (fields o) n v)) | None => h end.
(* `is` for these values: an attribute that was assigned and not changed *)
Definition q_eqb (x y : Q) : bool := Z.eqb (Qnum x) (Qnum y) && Pos.eqb (Qden x) (Qden y).
Fixpoint list_eqb {A} (f : A -> A -> bool) (a b : list A) : bool :=
  match a, b with [], [] => true | x :: a', y :: b' => f x y && list_eqb f a' b' | _, _ => false end.
Definition atom_eqb (a b : atom) : bool :=
  match a, b with
  | ANone, ANone => true | ABool x, ABool y => Bool.eqb x y | AInt x, AInt y => Z.eqb x y | AStr x, AStr y => String.eqb x y
  | AMember x, AMember y => String.eqb x y | AFloat (Fin x), AFloat (Fin y) => q_eqb x y | AFloat PInf, AFloat PInf => true
  | AFloat NInf, AFloat NInf => true | AFloat NaN, AFloat NaN => true | AData x, AData y => list_eqb (list_eqb q_eqb) x y | _, _ => false
  end.
(* `is None` *)
Definition is_none (v : val) : bool := match v with Prim ANone => true | _ => false end.

(* How a class treats matching_type: as any attribute; as GenerationOperator does (generation_operator.py:15-35);
   as RuleInit does (initialization.py:33-61) *)
Inductive kind : Type := Plain | Operator | Initializer.
(* What __init__ computes from a parameter: its value, or 1 - its value *)
Inductive formula : Type := Same | Complement.
(* What __init__ asserts or needs for a comparison *)
Inductive demand : Type :=
| Comparable (n : string)                                                                  (* self.n is a number *)
| Below (only : option (string * string)) (small : list string) (plus : Z) (large : string). (* if self.n == text: self.a.b + plus < self.large *)
(* names: the parameters of __init__ as get_params lists them (sorted), None for classes without get_params;
   order: in which order __init__ assigns them; presets: what __init__ sets besides;
   fills: the parameters __init__ passes to _validate_components, with the class of the replacement for None (base.py:22-25);
   derived: the attributes __init__ computes from a parameter; demands: what it asserts;
   members: methods and class attributes *)
Record classinfo : Type := mkClass { names : option (list string); order : list string; presets : list (string * atom); fills : list (string * string);
  derived : list (string * (formula * string)); demands : list demand; members : list string; ckind : kind }.

Section World.
(* the classes, and the attributes of the values in atom *)
Variable classes : string -> classinfo.
Variable builtins : atom -> list string.

(* getattr; a method is read as the value AMember *)
Definition getattr (h : heap) (v : val) (n : string) : res val :=
  match v with
  | Prim a => if existsb (String.eqb n) (builtins a) then Ok (Prim (AMember n)) else Raise AttributeError
  | Ref p => let? o := lookup h p in
      match field (fields o) n with
      | Some w => Ok w
      | None => if existsb (String.eqb n) (members (classes (cls o))) then Ok (Prim (AMember n)) else Raise AttributeError
      end
  end.
Definition hasattr (h : heap) (v : val) (n : string) : bool := match getattr h v n with Ok _ => true | Raise _ => false end.

(* the class of the object, "" for other values *)
Definition class_of (h : heap) (v : val) : string := match v with Ref p => match nth_error h p with Some o => cls o | None => "" end | Prim _ => "" end.
(* isinstance(sigma, np.ndarray) and sigma.shape[0] == 2 *)
Definition two_rows (h : heap) (v : val) : bool :=
  match v with
  | Ref p => match nth_error h p with
             | Some o => String.eqb (cls o) "ndarray" && match field (fields o) "data" with Some (Prim (AData rows)) => Nat.eqb (length rows) 2 | _ => false end
             | None => false
             end
  | Prim _ => false
  end.
Definition setfield (p : nat) (n : string) (v : val) : St heap unit := fun h => (Ok tt, write h p n v).
(* setattr *)
Definition setattr (o : val) (n : string) (v : val) : St heap unit :=
  match o with
  | Prim _ => raise AttributeError
  | Ref p =>
      let* h := get in
      let* ob := lift (lookup h p) in
      setfield p n v ;;
      if String.eqb n "matching_type" then
        match ckind (classes (cls ob)) with
        | Plain => ret tt
        | Operator =>
            let checked (m : string) := setfield p "execute" (Prim (AMember m)) ;; let* s := lift (getattr h o "sigma") in lift (assert_ (two_rows h s)) in
            let c := class_of h v in
            if String.eqb c "OrderedBound" then setfield p "execute" (Prim (AMember "ordered_bound"))
            else if String.eqb c "UnorderedBound" then setfield p "execute" (Prim (AMember "unordered_bound"))
            else if String.eqb c "CenterSpread" then checked "center_spread"%string
            else if String.eqb c "MinPercentage" then checked "min_percentage"%string
            else ret tt
        | Initializer =>
            let c := class_of h v in
            if String.eqb c "OrderedBound" then setfield p "generate_matching_function" (Prim (AMember "ordered_bound"))
            else if String.eqb c "UnorderedBound" then setfield p "generate_matching_function" (Prim (AMember "unordered_bound"))
            else if String.eqb c "CenterSpread" then setfield p "generate_matching_function" (Prim (AMember "centre_spread"))
            else if String.eqb c "MinPercentage" then setfield p "generate_matching_function" (Prim (AMember "min_percentage"))
            else ret tt
        end
      else ret tt
  end.
Definition alloc (o : object) : St heap val := fun h => (Ok (Ref (length h)), h ++ [o]).

(* ================= sklearn.base ================= *)
(* hasattr(v, "get_params"), and its parameters *)
Definition param_names (h : heap) (v : val) : option (list string) :=
  match v with Ref p => match nth_error h p with Some o => names (classes (cls o)) | None => None end | Prim _ => None end.
(* BaseEstimator.get_params(deep=True); a key a__b__c is the list [a; b; c]: parameter names contain no "__".
   Python would recurse for ever on a cyclic configuration, the model runs out of fuel *)
Fixpoint get_params (fuel : nat) (h : heap) (v : val) : res (list (list string * val)) :=
  match fuel with
  | O => Raise OutOfFuel
  | S f =>
      let? ns := of_option AttributeError (param_names h v) in
      let? parts := rmap (fun n =>
        let? w := getattr h v n in
        let? deep := match param_names h w with Some _ => get_params f h w | None => Ok [] end in
        Ok (map (fun kv => (n :: fst kv, snd kv)) deep ++ [([n], w)])) ns in
      Ok (concat parts)
  end.
(* BaseEstimator.set_params with one key *)
Fixpoint set_params (v : val) (key : list string) (w : val) : St heap unit :=
  match key with
  | [] => raise ValueError
  | n :: rest =>
      let* h := get in
      let* ns := lift (of_option AttributeError (param_names h v)) in
      if negb (existsb (String.eqb n) ns) then raise ValueError else
      match rest with
      | [] => setattr v n w
      | _ :: _ => let* c := lift (getattr h v n) in set_params c rest w
      end
  end.
(* copy.deepcopy; an object that occurs twice is copied twice, and methods are not copied *)
Fixpoint deepcopy (fuel : nat) (v : val) : St heap val :=
  match fuel with
  | O => raise OutOfFuel
  | S f =>
      match v with
      | Prim a => ret (Prim a)
      | Ref p =>
          let* h := get in
          let* o := lift (lookup h p) in
          let* fs := mmap (fun nv => let* w := deepcopy f (snd nv) in ret (fst nv, w)) (fields o) in
          alloc (mkObject (cls o) fs)
      end
  end.
Definition compute (f : formula) (v : val) : res val :=
  match f, v with
  | Same, _ => Ok v
  | Complement, Prim (AInt z) => Ok (Prim (AInt (1 - z)))
  | Complement, Prim (ABool b) => Ok (Prim (AInt (if b then 0 else 1)))
  | Complement, Prim (AFloat x) => Ok (Prim (AFloat (nsub (Fin 1) x)))
  | Complement, _ => Raise TypeError
  end.
(* a.b.c *)
Fixpoint follow (h : heap) (v : val) (path : list string) : res val :=
  match path with [] => Ok v | n :: rest => let? w := getattr h v n in follow h w rest end.
Definition number (v : val) : res num :=
  match v with Prim (AInt z) => Ok (Fin (inject_Z z)) | Prim (AFloat x) => Ok x | Prim (ABool b) => Ok (Fin (if b then 1 else 0)) | _ => Raise TypeError end.
Definition meets (h : heap) (o : val) (d : demand) : res unit :=
  match d with
  | Comparable n => let? w := getattr h o n in let? _ := number w in Ok tt
  | Below only small plus large =>
      let? due := match only with
                  | None => Ok true
                  | Some (n, s) => let? w := getattr h o n in Ok (match w with Prim (AStr t) => String.eqb t s | _ => false end)
                  end in
      if due then
        let? a := follow h o small in let? x := number a in
        let? b := getattr h o large in let? y := number b in
        assert_ (nlt (nadd x (Fin (inject_Z plus))) y)
      else Ok tt
  end.
(* a call of the class with these parameters; a replacement for None is an object of its class without attributes.
   Warnings are left out.  The assertion in NormalInit.__init__ (initialization.py:140-141) compares an object with two classes:
   it is never reached *)
Definition construct (c : string) (ps : list (string * val)) : St heap val :=
  let info := classes c in
  let* o := alloc (mkObject c (map (fun na => (fst na, Prim (snd na))) (presets info))) in
  miter (fun n => match field ps n with Some w => setattr o n w | None => ret tt end) (order info) ;;
  miter (fun nc => let* h := get in
                   let* w := lift (getattr h o (fst nc)) in
                   if is_none w then let* d := alloc (mkObject (snd nc) []) in setattr o (fst nc) d else ret tt)
    (fills info) ;;
  miter (fun dn => let* h := get in
                   let* w := lift (getattr h o (snd (snd dn))) in
                   let* u := lift (compute (fst (snd dn)) w) in setattr o (fst dn) u)
    (derived info) ;;
  miter (fun d => let* h := get in lift (meets h o d)) (demands info) ;;
  ret o.
(* param1 is param2 *)
Definition same_object (v w : val) : bool :=
  match v, w with Ref p, Ref q => Nat.eqb p q | Prim a, Prim b => atom_eqb a b | _, _ => false end.
(* sklearn.base.clone for values that are no lists; safe=False below the top *)
Fixpoint clone_value (fuel : nat) (v : val) : St heap val :=
  match fuel with
  | O => raise OutOfFuel
  | S f =>
      let* h := get in
      match v, param_names h v with
      | Ref p, Some ns =>
          let* o := lift (lookup h p) in
          let* ps := mmap (fun n => let* h := get in let* w := lift (getattr h v n) in let* w' := clone_value f w in ret (n, w')) ns in
          let* new := construct (cls o) ps in
          miter (fun nw => let* h := get in
                           let* w := lift (getattr h new (fst nw)) in
                           if same_object (snd nw) w then ret tt else raise RuntimeError) ps ;;
          ret new
      | _, _ => deepcopy fuel v
      end
  end.
Definition clone (fuel : nat) (v : val) : St heap val :=
  let* h := get in
  match param_names h v with Some _ => clone_value fuel v | None => raise TypeError end.

(* ================= suprb.py: preparation of the components ================= *)
(* 285-297 _validate_...: clone the parameter, or the default if there is none *)
Definition validate (fuel : nat) (self : val) (n : string) (default : val) : St heap val :=
  let* h := get in
  let* v := lift (getattr h self n) in
  let* c := clone fuel (if is_none v then default else v) in
  setattr self (n ++ "_") c ;; ret c.
(* 304-310 _propagate_component_parameters *)
Definition propagate (self rd sc : val) : St heap unit :=
  let* h := get in
  let* v := lift (getattr h self "n_jobs") in
  set_params rd ["n_jobs"%string] v ;; set_params sc ["n_jobs"%string] v.
(* key.endswith("bounds") *)
Definition ends_with (suffix s : string) : bool := String.eqb (String.substring (String.length s - String.length suffix) (String.length suffix) s) suffix.
Definition bounds_key (key : list string) : bool := ends_with "bounds" (last key ""%string).
(* 312-318 _init_bounds; data: what estimate_bounds returns *)
Definition init_bounds (fuel : nat) (rd : val) (data : list (list Q)) : St heap unit :=
  let* b := alloc (mkObject "ndarray" [("data"%string, Prim (AData data))]) in
  let* h := get in
  let* ps := lift (get_params fuel h rd) in
  miter (fun kv => if bounds_key (fst kv) && is_none (snd kv) then set_params rd (fst kv) b else ret tt) ps.
(* "matching_type" in key *)
Fixpoint contains (pat s : string) : bool :=
  String.prefix pat s || match s with EmptyString => false | String _ s' => contains pat s' end.
Definition matching_key (key : list string) : bool := existsb (contains "matching_type") key.
(* 320-323 _init_matching_type *)
Definition init_matching_type (fuel : nat) (rd mt : val) : St heap unit :=
  let* h := get in
  let* ps := lift (get_params fuel h rd) in
  miter (fun kv => if matching_key (fst kv) then set_params rd (fst kv) mt else ret tt) ps.
(* 166-183 of fit, without the pool; defaults: the objects built for the default= arguments *)
Definition prepare_components (fuel : nat) (self : val) (drd dsc dmt dlog : val) (data : list (list Q)) (max_len : Z) : St heap unit :=
  let* rd := validate fuel self "rule_discovery" drd in
  let* sc := validate fuel self "solution_composition" dsc in
  let* mt := validate fuel self "matching_type" dmt in
  let* _ := validate fuel self "logger" dlog in
  propagate self rd sc ;;
  init_bounds fuel rd data ;;
  init_matching_type fuel rd mt ;;
  let* h := get in
  let* i := lift (getattr h sc "init") in
  let* fi := lift (getattr h i "fitness") in
  setattr fi "max_genome_length_" (Prim (AInt max_len)).

(* ================= wrapper.py ================= *)
(* key.count("__") *)
Fixpoint count_us (s : string) : nat :=
  match s with
  | String "_" (String "_" s') => S (count_us s')
  | String _ s' => count_us s'
  | EmptyString => 0
  end.
(* key.replace("__", ".") *)
Fixpoint dotted (s : string) : string :=
  match s with
  | String "_" (String "_" s') => String "." (dotted s')
  | String c s' => String c (dotted s')
  | EmptyString => EmptyString
  end.
(* s.split(".") *)
Fixpoint split_dots (s : string) : list string :=
  match s with
  | EmptyString => [EmptyString]
  | String c s' => if Ascii.eqb c "." then EmptyString :: split_dots s'
                   else match split_dots s' with w :: ws => String c w :: ws | [] => [String c EmptyString] end
  end.
Definition path_of (key : string) : list string := split_dots (dotted key).
(* 41-43: steps that do not exist are left out *)
Definition walk (h : heap) (v : val) (steps : list string) : val :=
  fold_left (fun v n => match getattr h v n with Ok w => w | Raise _ => v end) steps v.
(* 33-50, one keyword; the result says whether there was a warning *)
Definition wrap_one (root : val) (key : string) (v : val) : St heap bool :=
  if String.eqb key "print_config" then ret false else
  let* h := get in
  let path := path_of key in
  let o := walk h root (removelast path) in
  let n := last path ""%string in
  if hasattr h o n then setattr o n v ;; ret false else ret true.
(* 29-58 __new__; the result: the estimator and the keywords that caused a warning.  Printing is left out *)
Definition wrapper (root : val) (kwargs : list (string * val)) : St heap (val * list string) :=
  let sorted := PyList.sort (fun a b => Nat.ltb (count_us (fst a)) (count_us (fst b))) kwargs in
  let* warned := mmap (fun kv => let* w := wrap_one root (fst kv) (snd kv) in ret (fst kv, w)) sorted in
  ret (root, map fst (filter snd warned)).
(* SupRBWrapper(suprb=..., **kwargs); without an argument it is the one object created with the class *)
Definition call_wrapper (default : val) (suprb : option val) (kwargs : list (string * val)) : St heap (val * list string) :=
  wrapper (match suprb with Some s => s | None => default end) kwargs.
End World.
