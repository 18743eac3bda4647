(** * Cached objects are never changed *)
From Verif Require Import Py Tensor Parsing Recipe Ops Backends Api Packing Einsum ParseFacts Cache Heap HeapFacts Instances.

(** ** C52: [_reconstruct_from_shape_uncached] on a recipe stored in objects changes
    none of the objects that exist, whether it succeeds or raises, and gives objects
    with what the model without identities computes *)
Theorem C52_reconstruct : forall {D} (O : dim_ops D) (h : heap D) (r : hrecipe) (rc : recipe) shape sizes,
  recipe_at O h r rc ->
  let '(v, h') := hp_reconstruct O r shape sizes h in
  only_new h h' /\
  match v with
  | Ok k => exists c, reconstruct O rc shape sizes = Ok c /\ cooked_at h' k c
  | Err e => reconstruct O rc shape sizes = Err e
  end.
Proof. exact @reconstruct_heap. Qed.
Print Assumptions C52_reconstruct.

(** [_apply_recipe] after that changes nothing at all *)
Theorem C52_apply : forall {D T} (O : dim_ops D) (B : backend T D) (h : heap D) (k : hcooked) (c : cooked D) tensor red red',
  cooked_at h k c -> calls red red' -> hp_apply B k tensor red h = (apply_cooked B c tensor red', h).
Proof. exact (fun D T O B h k c t red red' => apply_heap B h k c t red red'). Qed.
Print Assumptions C52_apply.

(** At any time of a process, in which functions were called and layers used and
    caches cleared in any order: a call returns what is computed without caches, and
    the process goes on in the same way. *)
Theorem C52_reduce : forall (lim : limits) {A} (r : runtime A) x pattern red red' id sizes st v st',
  runtime_ok r -> NoDup (map fst sizes) -> hopkey_of red id <> None -> calls red red' ->
  later int_ops Z.eqb lim (rt_unicode r) fresh_process st ->
  h_reduce lim r x pattern red id sizes st = (v, st') ->
  v = reduce r x pattern red' sizes /\ later int_ops Z.eqb lim (rt_unicode r) st st'.
Proof. exact (fun lim A r x p red red' id sizes st v st' Hok Hn Hk Hc L => h_reduce_spec lim r Hok x p red red' id sizes st v st' L Hn Hk Hc). Qed.
Print Assumptions C52_reduce.

Theorem C52_array_api : forall (lim : limits) {A} (r : runtime A) x pattern red red' id sizes st v st',
  runtime_ok r -> NoDup (map fst sizes) -> hopkey_of red id <> None -> calls red red' ->
  later int_ops Z.eqb lim (rt_unicode r) fresh_process st ->
  h_xp_reduce lim r x pattern red id sizes st = (v, st') ->
  v = xp_reduce_ r x pattern red' sizes /\ later int_ops Z.eqb lim (rt_unicode r) st st'.
Proof. exact (fun lim A r x p red red' id sizes st v st' Hok Hn Hk Hc L => h_xp_reduce_spec lim r Hok x p red red' id sizes st v st' L Hn Hk Hc). Qed.
Print Assumptions C52_array_api.

(** no object is ever changed; recipes keep their numbers *)
Theorem C52_unchanged : forall (lim : limits) {A} (r : runtime A) st st',
  later int_ops Z.eqb lim (rt_unicode r) fresh_process st -> later int_ops Z.eqb lim (rt_unicode r) st st' ->
  only_new (hs_heap st) (hs_heap st') /\ exists l, hs_made st' = hs_made st ++ l.
Proof. exact @h_unchanged. Qed.
Print Assumptions C52_unchanged.

(** whenever one looks into the caches, the objects hold what was computed for their keys *)
Theorem C52_recipes : forall (lim : limits) {A} (r : runtime A) st p op ns n i rec,
  later int_ops Z.eqb lim (rt_unicode r) fresh_process st -> In ((p, op, ns, n), (i, rec)) (hs_recipes st) ->
  nth_error (hs_made st) i = Some rec /\
  exists o rc, orders_ok o /\ prepare_recipe (rt_unicode r) o p (op_of_key op) ns n = Ok rc /\ recipe_at int_ops (hs_heap st) rec rc.
Proof. exact @h_cached_recipe. Qed.
Print Assumptions C52_recipes.

Theorem C52_cooked : forall (lim : limits) {A} (r : runtime A) st i shape sizes k,
  later int_ops Z.eqb lim (rt_unicode r) fresh_process st -> In ((i, shape, sizes), k) (hs_cooked st) ->
  exists rec rc c, nth_error (hs_made st) i = Some rec /\ recipe_at int_ops (hs_heap st) rec rc /\
    reconstruct int_ops rc shape sizes = Ok c /\ cooked_at (hs_heap st) k c.
Proof. exact @h_cached_cooked. Qed.
Print Assumptions C52_cooked.

(** ** Concrete cases *)
(** a callable that empties whatever it may change *)
Definition vandal : hreduction Z (tensor Z) :=
  HCall (fun t a h => match a with
                      | HTuple l => (b_reduce (rt_backend numpy_like) t (lit "sum") l, h)
                      | HRef l => (Ok t, match list_upd h l (ONats []) with Ok h => h | Err _ => h end)
                      end).
Definition tame : reduction (tensor Z) := RCall (fun t l => b_reduce (rt_backend numpy_like) t (lit "sum") l).
Example C52_vandal : calls vandal tame.
Proof. intros t l h. reflexivity. Qed.
Definition first_call := h_reduce einops_limits numpy_like (One (iota [2; 6])) (lit "b (h w) -> h b") vandal (Some 0) [(lit "w", 2%Z)].
Definition second_call := h_reduce einops_limits numpy_like (One (iota [2; 9])) (lit "b (h w) -> h b") vandal (Some 0) [(lit "w", 3%Z)].
(** three calls: with one recipe, which is filled in twice; the third is answered
    from the caches without any new object *)
Example C52_case :
  let '(v1, st1) := first_call fresh_process in
  let '(v2, st2) := second_call st1 in
  let '(v3, st3) := first_call st2 in
  v1 = Ok (mkT [3; 2] [1; 13; 5; 17; 9; 21]%Z) /\ v2 = Ok (mkT [3; 2] [3; 30; 12; 39; 21; 48]%Z) /\ v3 = v1 /\
  length (hs_made st3) = 1 /\ length (hs_cooked st3) = 2 /\ hs_heap st3 = hs_heap st2 /\
  0 < length (hs_heap fresh_process ++ hs_heap st1) < length (hs_heap st2) /\
  firstn (length (hs_heap st1)) (hs_heap st2) = hs_heap st1.
Proof. vm_compute. repeat split; lia. Qed.
(** the first list of the recipe (lengths known from the pattern) still has marks for
    unknown (-999999) and expected (-99999) lengths, its copies have lengths *)
Example C52_copy :
  let '(_, st1) := first_call fresh_process in
  nth_error (hs_heap st1) 0 = Some (OLens [-999999; -999999; -99999]%Z) /\
  In (OLens [2; 3; 2]%Z) (hs_heap st1).
Proof. vm_compute. split; [reflexivity|]. repeat (try (left; reflexivity); right). Qed.
