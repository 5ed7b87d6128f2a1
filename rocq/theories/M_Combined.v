(* suprb/logging/combination.py: parameters and copies of a combined logger, with the methods of sklearn.base.BaseEstimator (1.0)
   it relies on. *)
From Coq Require Import String Ascii.
From Verif Require Import PyNum PyList PyMon M_Objects.

(* a value of a parameter: one value, or the list self.loggers *)
Inductive value : Type := One (v : val) | Members (l : list (string * val)).
(* 15-17: a combined logger holds named members.  Any other logger has parameters with plain values
   (logging/stdout.py:15-16, logging/default.py: none); Ref p is the logger p, Prim something that is no logger *)
Inductive logger : Type := Simple (ps : list (string * atom)) | Combined (ms : list (string * val)).
Definition loggers : Type := list logger.

(* a dictionary in insertion order *)
Fixpoint item {A} (d : list (string * A)) (k : string) : option A :=
  match d with [] => None | (m, v) :: d' => if String.eqb m k then Some v else item d' k end.
Fixpoint put {A} (d : list (string * A)) (k : string) (v : A) : list (string * A) :=
  match d with [] => [(k, v)] | (m, w) :: d' => if String.eqb m k then (m, v) :: d' else (m, w) :: put d' k v end.
(* dict.update *)
Definition put_all {A} (d d' : list (string * A)) : list (string * A) := fold_left (fun d kv => put d (fst kv) (snd kv)) d' d.
(* dict.pop *)
Definition without {A} (d : list (string * A)) (k : string) : list (string * A) := filter (fun kv => negb (String.eqb (fst kv) k)) d.
(* key.partition("__"): what comes before, and what comes after if "__" occurs *)
Fixpoint partition (s : string) : string * option string :=
  match s with
  | String "_" (String "_" s') => (EmptyString, Some s')
  | String c s' => let (a, b) := partition s' in (String c a, b)
  | EmptyString => (EmptyString, None)
  end.

Definition nth_logger (h : loggers) (p : nat) : res logger := of_option Dangling (nth_error h p).
(* 36-46 and BaseEstimator.get_params, deep=True *)
Fixpoint get_params (fuel : nat) (h : loggers) (v : val) : res (list (string * value)) :=
  match fuel with
  | O => Raise OutOfFuel
  | S f =>
      match v with
      | Prim _ => Raise AttributeError
      | Ref p =>
          let? o := nth_logger h p in
          match o with
          | Simple ps => Ok (map (fun ka => (fst ka, One (Prim (snd ka)))) ps)
          | Combined ms =>
              (fix members (l : list (string * val)) (out : list (string * value)) : res (list (string * value)) :=
                 match l with
                 | [] => Ok out
                 | (n, Prim _) :: l' => members l' out
                 | (n, Ref q) :: l' =>
                     let? ps := get_params f h (Ref q) in
                     members l' (put_all out (map (fun kw => (n ++ "__" ++ fst kw, snd kw))%string ps))
                 end) ms (put_all [("loggers"%string, Members ms)] (map (fun nv => (fst nv, One (snd nv))) ms))
          end
      end
  end.

Definition store (p : nat) (o : logger) : St loggers unit := fun h => (Ok tt, update h p o).
(* 65-72 _replace_logger *)
Fixpoint replace_first (ms : list (string * val)) (n : string) (v : val) : list (string * val) :=
  match ms with [] => [] | (m, w) :: ms' => if String.eqb m n then (n, v) :: ms' else (m, w) :: replace_first ms' n v end.
(* setattr(self, key, value) of a parameter *)
Definition set_own (p : nat) (k : string) (w : value) : St loggers unit :=
  let* h := get in
  let* o := lift (nth_logger h p) in
  match o, w with
  | Simple ps, One (Prim a) => store p (Simple (put ps k a))
  | _, _ => raise NotModelled
  end.
(* BaseEstimator.set_params after valid_params: own parameters in turn, nested ones collected per component *)
Fixpoint set_each (p : nat) (valid : list (string * value)) (ps : list (string * value)) (nested : list (string * list (string * value)))
  : St loggers (list (string * value) * list (string * list (string * value))) :=
  match ps with
  | [] => ret (valid, nested)
  | (k, w) :: ps' =>
      match partition k with
      | (n, None) => if item valid n then set_own p n w ;; set_each p (put valid n w) ps' nested else raise ValueError
      | (n, Some sub) => if item valid n then set_each p valid ps' (put nested n (put (match item nested n with Some l => l | None => [] end) sub w))
                         else raise ValueError
      end
  end.
(* 54-60: names of the members, fixed before the loop *)
Fixpoint replace_members (p : nat) (names : list string) (ks : list string) (ps : list (string * value)) : St loggers (list (string * value)) :=
  match ks with
  | [] => ret ps
  | k :: ks' =>
      match partition k, item ps k with
      | (_, None), Some w =>
          if existsb (String.eqb k) names then
            let* h := get in
            let* o := lift (nth_logger h p) in
            match o, w with
            | Combined ms, One v => store p (Combined (replace_first ms k v)) ;; replace_members p names ks' (without ps k)
            | _, _ => raise NotModelled
            end
          else replace_members p names ks' ps
      | _, _ => replace_members p names ks' ps
      end
  end.
(* 48-63 and BaseEstimator.set_params; ps: keywords.  Lists of members as such are only assigned to "loggers" *)
Fixpoint set_params (fuel : nat) (v : val) (ps : list (string * value)) : St loggers unit :=
  match fuel with
  | O => raise OutOfFuel
  | S f =>
      match v with
      | Prim _ => raise AttributeError
      | Ref p =>
          let base (ps : list (string * value)) : St loggers unit :=
            match ps with
            | [] => ret tt
            | _ :: _ =>
                let* h := get in
                let* valid := lift (get_params fuel h (Ref p)) in
                let* vn := set_each p valid ps [] in
                miter (fun ns => match item (fst vn) (fst ns) with
                                 | Some (One c) => set_params f c (snd ns)
                                 | _ => raise AttributeError
                                 end) (snd vn)
            end in
          let* h := get in
          let* o := lift (nth_logger h p) in
          match o with
          | Simple _ => base ps
          | Combined ms =>
              let* ps := match item ps "loggers" with
                         | None => ret ps
                         | Some (Members l) => store p (Combined l) ;; ret (without ps "loggers")
                         | Some (One _) => raise NotModelled
                         end in
              let* h := get in
              let* o := lift (nth_logger h p) in
              match o with
              | Combined ms => let* ps := replace_members p (map fst ms) (map fst ps) ps in base ps
              | Simple _ => raise NotModelled
              end
          end
      end
  end.

(* 20-21: the elements of self.loggers are tuples *)
Inductive element : Type := Pair (n : string) (v : val) | Bare (v : val).
Definition is_combined (h : loggers) (e : element) : bool :=
  match e with
  | Bare (Ref p) => match nth_error h p with Some (Combined _) => true | _ => false end
  | Bare (Prim _) => false
  | Pair _ _ => false
  end.
Definition warns (h : loggers) (ms : list (string * val)) : bool := existsb (is_combined h) (map (fun nv => Pair (fst nv) (snd nv)) ms).
Definition add (o : logger) : St loggers val := fun h => (Ok (Ref (length h)), h ++ [o]).
(* sklearn.base.clone of a logger; inside the list of members with safe=False *)
Fixpoint copy (fuel : nat) (v : val) : St loggers val :=
  match fuel with
  | O => raise OutOfFuel
  | S f =>
      match v with
      | Prim a => ret (Prim a)
      | Ref p =>
          let* h := get in
          let* o := lift (nth_logger h p) in
          match o with
          | Simple ps => add (Simple ps)
          | Combined ms => let* ms' := mmap (fun nv => let* w := copy f (snd nv) in ret (fst nv, w)) ms in add (Combined ms')
          end
      end
  end.
(* clone of a member, safe=True: it must be a logger *)
Definition copy_member (fuel : nat) (v : val) : St loggers val := match v with Prim _ => raise TypeError | Ref _ => copy fuel v end.
(* 19-23 log_init up to the copies: whether there is a warning, and self.loggers_ *)
Definition log_init (fuel : nat) (ms : list (string * val)) : St loggers (bool * list (string * val)) :=
  let* h := get in
  let* ms' := mmap (fun nv => let* w := copy_member fuel (snd nv) in ret (fst nv, w)) ms in
  ret (warns h ms, ms').
