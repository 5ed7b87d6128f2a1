(* Vocabulary for objects and parameters. *)
From Coq Require Import String Ascii.
From Verif Require Import PyNum PyList PyMon M_Objects.

(* the value of an attribute that is stored in the object at address p *)
Definition stored (h : heap) (p : nat) (n : string) : option val :=
  match nth_error h p with Some o => field (fields o) n | None => None end.
(* nothing changed but these fields *)
Definition changed_only (fs : nat -> string -> Prop) (h h' : heap) : Prop :=
  length h' = length h /\
  (forall p o, nth_error h p = Some o -> exists o', nth_error h' p = Some o' /\ cls o' = cls o) /\
  (forall p n, ~ fs p n -> stored h' p n = stored h p n).
(* every reference leads to an object *)
Definition sound (h : heap) : Prop := forall p o n q, nth_error h p = Some o -> field (fields o) n = Some (Ref q) -> (q < length h)%nat.
Definition valid (h : heap) (v : val) : Prop := match v with Ref p => (p < length h)%nat | Prim _ => True end.
(* the attributes that fit sets in its copies (and on the estimator) *)
Definition assigned : list string :=
  ["rule_discovery_"; "solution_composition_"; "matching_type_"; "logger_"; "n_jobs"; "matching_type"; "execute"; "generate_matching_function"; "max_genome_length_"]%string.
Section World.
Variable classes : string -> classinfo.
Variable builtins : atom -> list string.
(* following attributes, every one of which exists *)
Inductive leads (h : heap) : val -> list string -> val -> Prop :=
| Leads_here v : leads h v [] v
| Leads_on v n w path u : getattr classes builtins h v n = Ok w -> leads h w path u -> leads h v (n :: path) u.
(* following parameters of components; inside other objects (arrays, filters) every attribute counts *)
Inductive configured (h : heap) : val -> list string -> val -> Prop :=
| Configured_here v : configured h v [] v
| Configured_param v ns n w path u : param_names classes h v = Some ns -> In n ns -> getattr classes builtins h v n = Ok w -> configured h w path u -> configured h v (n :: path) u
| Configured_field p o n w path u : nth_error h p = Some o -> names (classes (cls o)) = None -> field (fields o) n = Some w -> configured h w path u -> configured h (Ref p) (n :: path) u.
(* the parameters get_params lists, nested ones included *)
Inductive parameter (h : heap) : val -> list string -> val -> Prop :=
| Param_here v ns n w : param_names classes h v = Some ns -> In n ns -> getattr classes builtins h v n = Ok w -> parameter h v [n] w
| Param_deep v ns n w key u : param_names classes h v = Some ns -> In n ns -> getattr classes builtins h v n = Ok w -> parameter h w key u -> parameter h v (n :: key) u.
(* what fit works with: the given component, or a default one if None was given *)
Inductive chosen (h : heap) (s : nat) (n : string) (default : val) : val -> Prop :=
| Chosen_given v : getattr classes builtins h (Ref s) n = Ok v -> v <> Prim ANone -> chosen h s n default v
| Chosen_default : getattr classes builtins h (Ref s) n = Ok (Prim ANone) -> chosen h s n default default.
(* c in h' is a new object of the class of v in h with the same settings; the attributes in assigned may differ, and so may bounds that were None *)
Definition works_on_copy (h : heap) (v : val) (h' : heap) (c : val) : Prop :=
  class_of h' c = class_of h v /\ (exists p, c = Ref p /\ (length h <= p < length h')%nat) /\
  forall path a, configured h v path (Prim a) -> (forall n, In n path -> ~ In n assigned) -> (a = ANone -> ends_with "bounds" (last path ""%string) = false) -> configured h' c path (Prim a).
(* no parameter of the component carries a representation with parameters of its own *)
Definition no_own_representation (h : heap) (v : val) : Prop :=
  forall key w, parameter h v key w -> (forall n, In n (removelast key) -> contains "matching_type" n = false) /\
    (contains "matching_type" (last key ""%string) = true -> last key ""%string = "matching_type"%string).
(* arrays are no components, and no parameter has one of the names fit itself assigns *)
Definition usual_classes : Prop :=
  names (classes "ndarray"%string) = None /\
  forall c ns, names (classes c) = Some ns -> forall n, In n ["execute"; "generate_matching_function"; "max_genome_length_"]%string -> ~ In n ns.
(* the attribute a keyword names: every step of its path exists *)
Definition target (h : heap) (root : val) (key : string) (p : nat) (n : string) : Prop :=
  exists steps w, path_of key = steps ++ [n] /\ leads h root steps (Ref p) /\ getattr classes builtins h (Ref p) n = Ok w.
(* the path of the keyword reads or names the attribute n of p *)
Definition touches (h : heap) (root : val) (p : nat) (n : string) (key : string) : Prop :=
  exists before after, path_of key = before ++ n :: after /\ leads h root before (Ref p).
End World.
Fixpoint ends_in_underscore (s : string) : bool :=
  match s with EmptyString => false | String c EmptyString => Ascii.eqb c "_" | String _ s' => ends_in_underscore s' end.
(* which method a component must use for which kind of condition *)
Inductive uses : kind -> string -> string -> string -> Prop :=
| Op_obr : uses Operator "OrderedBound" "execute" "ordered_bound"
| Op_ubr : uses Operator "UnorderedBound" "execute" "unordered_bound"
| Op_csr : uses Operator "CenterSpread" "execute" "center_spread"
| Op_mpr : uses Operator "MinPercentage" "execute" "min_percentage"
| In_obr : uses Initializer "OrderedBound" "generate_matching_function" "ordered_bound"
| In_ubr : uses Initializer "UnorderedBound" "generate_matching_function" "unordered_bound"
| In_csr : uses Initializer "CenterSpread" "generate_matching_function" "centre_spread"
| In_mpr : uses Initializer "MinPercentage" "generate_matching_function" "min_percentage".
