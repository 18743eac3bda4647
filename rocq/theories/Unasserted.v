(** * Model of the functions run with python -O

    Assert statements are skipped: einops.py:43, 272 (the reduction is one of the
    known ones) and 407 (an axis is known or unknown).  The others: einops.py:53 is
    in dead code (Optimize.v), parsing.py:115 in a function nobody calls,
    _einmix.py:179 holds by the type of the composition (Parsing.v),
    _backends.py:361 and 365 are about the mode of tensorflow. *)
From Verif Require Import Py Tensor Parsing Recipe Ops Backends Api.

(** einops.py:400-410 without 407 *)
Definition known_unknown_O (o : orders) (d : list (axis * Z)) (pos : list (axis * nat)) (g : list axis)
    : result (list nat * list nat) :=
  let* vs := mapM (fun a => dict_getr a d) g in
  let tagged := combine g vs in
  let known := set_of (map fst (filter (fun '(_, v) => negb (v =? unknown_axis_length)%Z) tagged)) in
  let unknown := set_of (map fst (filter (fun '(_, v) => (v =? unknown_axis_length)%Z) tagged)) in
  let* _ := raise_if (1 <? length unknown) EinopsError in
  let* k := mapM (fun a => dict_getr a pos) (o 1 known) in
  let* u := mapM (fun a => dict_getr a pos) (o 2 unknown) in
  Ok (k, u).

(** einops.py:289-442 *)
Definition prepare_recipe_O (U : unicode) (o : orders) (pattern : pystr) (op : operation)
    (axes_names : list pystr) (ndim : nat) : result recipe :=
  match str_split s_arrow pattern with
  | [left_str; rght_str] =>
    let* (lft, next) := parse_expression U false false 0 left_str in
    let* (rght, _) := parse_expression U false false next rght_str in
    let* _ := raise_if (negb (p_has_ellipsis lft) && p_has_ellipsis rght) EinopsError in
    let* _ := raise_if (p_has_ellipsis lft
                        && match p_ell_par lft with Some b => b | None => false end) EinopsError in
    let* _ := check_identifiers op lft rght axes_names in
    let* (lcomp, rcomp, lids, rids) := resolve_ellipsis lft rght ndim in
    let d1 := known_lengths_left lcomp in
    let d2 := known_lengths_add (o 0 rids) d1 in
    let pos := name2position d2 in
    let* d3 := mark_expected U axes_names d2 in
    let* input := mapM (known_unknown_O o d3 pos) lcomp in
    let* output := mapM (mapM (fun a => dict_getr a pos)) rcomp in
    let ordered_left := concat lcomp in
    let ordered_rght := concat rcomp in
    let reduced := filter (fun a => negb (axis_mem a rids)) ordered_left in
    let order_after := filter (fun a => axis_mem a lids) ordered_rght ++ reduced in
    let* perm := mapM (fun a => axis_index a ordered_left) order_after in
    let* added := mapM (fun '(i, a) => let* p := dict_getr a pos in Ok (i, p))
                    (filter (fun '(_, a) => negb (axis_mem a lids)) (enumerate ordered_rght)) in
    let* n2e := mapM (fun s => let* p := dict_getr (AxName s) pos in Ok (s, p)) axes_names in
    Ok {| r_elementary := map snd d3;
          r_name2elem := n2e;
          r_input := input;
          r_perm := perm;
          r_first_reduced := length order_after - length reduced;
          r_added := added;
          r_output := output |}
  | _ => Err ValueError
  end.

Section Ops.
  Context {T D : Type} (U : unicode) (o : orders) (O : dim_ops D) (B : backend T D).

  (** einops.py:37-47 [_reduce_axes] without 43 *)
  Definition reduce_axes_O (tensor : T) (red : reduction T) (reduced_axes : list nat) : result T :=
    match red with
    | RCall f => f tensor reduced_axes
    | RStr s =>
        let* _ := raise_if (str_eqb s (lit "mean") && negb (b_is_float B tensor)) NotImplementedError in
        b_reduce B tensor s reduced_axes
    end.

  (** einops.py:230-252 *)
  Definition apply_recipe_O (r : recipe) (tensor : T) (red : reduction T) (sizes : list (pystr * D)) : result T :=
    let* k := reconstruct O r (b_shape B tensor) sizes in
    let* t1 := match k_init k with Some s => b_reshape B tensor s | None => Ok tensor end in
    let* t2 := match k_reorder k with Some p => b_transpose B t1 p | None => Ok t1 end in
    let* t3 := match k_reduced k with [] => Ok t2 | _ => reduce_axes_O t2 red (k_reduced k) end in
    let* t4 := match k_added k with [] => Ok t3 | _ => b_add_axes B t3 (k_naxes k) (k_added k) end in
    match k_final k with Some s => b_reshape B t4 s | None => Ok t4 end.

  (** einops.py:460-542 [reduce] *)
  Definition api_reduce_O (x : input T) (pattern : pystr) (red : reduction T) (sizes : list (pystr * D)) : result T :=
    let* _ := check_kwargs reserved_kwargs sizes in
    let* tensor := stack_input B x in
    let* r := prepare_recipe_O U o pattern (op_of red) (map fst sizes) (length (b_shape B tensor)) in
    apply_recipe_O r tensor red sizes.
End Ops.

Section ArrayAPI.
  Context {T : Type} (U : unicode) (o : orders) (X : array_ns T).
  (** einops.py:255-286 without 272 *)
  Definition apply_recipe_array_api_O (r : recipe) (tensor : T) (red : reduction T) (sizes : list (pystr * Z)) : result T :=
    let* k := reconstruct int_ops r (xp_shape X tensor) sizes in
    let* t1 := match k_init k with Some s => xp_reshape X tensor s | None => Ok tensor end in
    let* t2 := match k_reorder k with Some p => xp_permute_dims X t1 p | None => Ok t1 end in
    let* t3 := match k_reduced k with
               | [] => Ok t2
               | _ => match red with
                      | RCall f => f t2 (k_reduced k)
                      | RStr s => xp_reduce X t2 s (k_reduced k)
                      end
               end in
    let* t4 := match k_added k with
               | [] => Ok t3
               | added =>
                   let* t := foldM (fun t '(p, _) => xp_expand_dims X t p) added t3 in
                   let* s := foldM (fun s '(p, l) => list_upd s p l) added (xp_shape X t) in
                   xp_broadcast_to X t s
               end in
    match k_final k with Some s => xp_reshape X t4 s | None => Ok t4 end.
  (** array_api.py:6-31 *)
  Definition aa_reduce_O (x : input T) (pattern : pystr) (red : reduction T) (sizes : list (pystr * Z)) : result T :=
    let* _ := check_kwargs reserved_kwargs sizes in
    let* tensor := stack_input_array_api X x in
    let* r := prepare_recipe_O U o pattern (op_of red) (map fst sizes) (length (xp_shape X tensor)) in
    apply_recipe_array_api_O r tensor red sizes.
End ArrayAPI.

Definition reduce_O {A} (r : runtime A) (x : input (tensor A)) pattern red sizes :=
  api_reduce_O (rt_unicode r) (rt_orders r) int_ops (rt_backend r) x pattern red sizes.
Definition xp_reduce_O {A} (r : runtime A) (x : input (tensor A)) pattern red sizes :=
  aa_reduce_O (rt_unicode r) (rt_orders r) (rt_ns r) x pattern red sizes.
