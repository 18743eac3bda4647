(** * Specification: how often something is computed again

    Part of the specification. *)
From Verif Require Import Py Tensor Parsing Recipe Ops Backends Api Packing Einsum Cache Work.

(** [later] mentions fewer than [m] different keys that are accepted *)
Definition fewer_than {K} (accepted : K -> Prop) (m : nat) (later : list K) : Prop :=
  forall l, NoDup l -> (forall k, In k l -> In k later /\ accepted k) -> length l < m.
(** Requests, the latest first.  [k] was requested before and accepted, and fewer than
    [m] other keys were requested and accepted since the last time. *)
Definition remembered {K} (accepted : K -> Prop) (m : nat) (requests : list K) (k : K) : Prop :=
  accepted k /\ exists later earlier, requests = later ++ k :: earlier /\ ~ In k later /\ fewer_than accepted m later.

(** keys that are accepted: the function does not raise *)
Definition recipe_accepted (U : unicode) (k : rkey) : Prop :=
  let '(p, op, names, n) := k in exists o rec, orders_ok o /\ prepare_recipe U o p (op_of_key op) names n = Ok rec.
Definition pattern_accepted (U : unicode) (k : pystr * pystr) : Prop := exists v, analyze_pattern U (fst k) = Ok v.
Definition einsum_accepted (U : unicode) (p : pystr) : Prop := exists c, compactify U p = Ok c.

(** ** What a call asks for, whatever the caches hold *)
Section Asked.
  Context {A : Type}.
  (** the keywords are allowed, the input is a tensor or can be stacked, the operation can
      be hashed *)
  Definition recipe_asked (r : runtime A) (c : call A) : option rkey :=
    match c with
    | CallReduce x p red id sizes =>
        match check_kwargs reserved_kwargs sizes, stack_input (rt_backend r) x, opkey_of red id with
        | Ok _, Ok t, Some op => Some (p, op, map fst sizes, length (shp t))
        | _, _, _ => None
        end
    | CallXpReduce x p red id sizes =>
        match check_kwargs reserved_kwargs sizes, stack_input_array_api (rt_ns r) x, opkey_of red id with
        | Ok _, Ok t, Some op => Some (p, op, map fst sizes, length (shp t))
        | _, _, _ => None
        end
    | _ => None
    end.
  (** the same with the shape and the lengths *)
  Definition plan_asked (r : runtime A) (c : call A) : option (rkey * list Z * list (pystr * Z)) :=
    match recipe_asked r c, c with
    | Some k, CallReduce x _ _ _ sizes => match stack_input (rt_backend r) x with Ok t => Some (k, map Z.of_nat (shp t), sizes) | Err _ => None end
    | Some k, CallXpReduce x _ _ _ sizes => match stack_input_array_api (rt_ns r) x with Ok t => Some (k, map Z.of_nat (shp t), sizes) | Err _ => None end
    | _, _ => None
    end.
  Definition pattern_asked (c : call A) : option (pystr * pystr) :=
    match c with
    | CallPack _ p | CallXpPack _ p => Some (p, lit "pack")
    | CallUnpack _ _ p | CallXpUnpack _ _ p => Some (p, lit "unpack")
    | _ => None
    end.
  (** at least two arguments, the last of which is a string *)
  Definition einsum_asked (c : call A) : option pystr :=
    match c with
    | CallEinsum _ args => match rev args with inr p :: _ :: _ => Some p | _ => None end
    | _ => None
    end.
End Asked.

(** ** What was asked for since the cache was last cleared, the latest first *)
Fixpoint requests {A K} (asked : event A -> option K) (clears : event A -> bool) (h : list (event A)) : list K :=
  match h with
  | [] => []
  | e :: h => if clears e then [] else match asked e with Some k => k :: requests asked clears h | None => requests asked clears h end
  end.
Section Requests.
  Context {A : Type}.
  Implicit Types h : list (event A).
  Definition recipe_requests h : list rkey :=
    requests (fun e => match e with Called r c => recipe_asked r c | LayerMade _ k => Some k | _ => None end)
             (fun e => match e with Cleared recipes _ _ _ => recipes | _ => false end) h.
  Definition pattern_requests h : list (pystr * pystr) :=
    requests (fun e => match e with Called _ c => pattern_asked c | _ => None end)
             (fun e => match e with Cleared _ _ analyzed _ => analyzed | _ => false end) h.
  Definition einsum_requests h : list pystr :=
    requests (fun e => match e with Called _ c => einsum_asked c | _ => None end)
             (fun e => match e with Cleared _ _ _ compact => compact | _ => false end) h.
  Definition plan_requests h : list (rkey * list Z * list (pystr * Z)) :=
    requests (fun e => match e with Called r c => plan_asked r c | _ => None end) (fun _ => false) h.
  (** calls and new layers only *)
  Definition calls_only h : Prop := forall e, In e h -> match e with Called _ _ | LayerMade _ _ => True | _ => False end.
  (** one interpreter *)
  Definition event_ok (U : unicode) (e : event A) : Prop :=
    match e with Called r _ => runtime_ok r /\ rt_unicode r = U | LayerMade o _ => orders_ok o | _ => True end.
End Requests.

(** ** Kinds of work *)
Definition recipes_in (l : list body) : list rkey := flat_map (fun b => match b with Prepares k => [k] | _ => [] end) l.
Definition patterns_in (l : list body) : list (pystr * pystr) := flat_map (fun b => match b with Analyzes k => [k] | _ => [] end) l.
Definition einsums_in (l : list body) : list pystr := flat_map (fun b => match b with Compacts p => [p] | _ => [] end) l.
(** shapes and lengths for which plans are made *)
Definition plans_in (l : list body) : list (list Z * list (pystr * Z)) := flat_map (fun b => match b with Cooks _ shape sizes => [(shape, sizes)] | _ => [] end) l.
(** [k] is there exactly once *)
Definition exactly_once {K} (k : K) (l : list K) : Prop := exists l1 l2, l = l1 ++ k :: l2 /\ ~ In k l1 /\ ~ In k l2.
(** the work [l] is [k], once; nothing if [P] *)
Definition once_unless {K} (P : Prop) (l : list K) (k : K) : Prop := (P -> l = []) /\ (~ P -> l = [k]).
