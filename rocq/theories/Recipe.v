(** * Model of einops/einops.py: recipes

    [_prepare_transformation_recipe] (289-442) and
    [_reconstruct_from_shape_uncached] (155-224). *)
From Verif Require Import Py Parsing.

(** einops.py:25-26 *)
Definition unknown_axis_length : Z := -999999.
Definition expected_axis_length : Z := -99999.

(** The [operation] argument: a string, or a callable (what it does is
    irrelevant for the recipe). *)
Inductive operation := OpStr (s : pystr) | OpCallable.

(** einops.py:21 [_reductions] *)
Definition reductions : list pystr :=
  [lit "min"; lit "max"; lit "sum"; lit "mean"; lit "prod"; lit "any"; lit "all"].

Definition s_rearrange : pystr := lit "rearrange".
Definition s_repeat : pystr := lit "repeat".
Definition s_arrow : pystr := lit "->".

(** einops.py:114-152 [TransformRecipe] *)
Record recipe := {
  r_elementary : list Z;                         (* elementary_axes_lengths *)
  r_name2elem : list (pystr * nat);              (* axis_name2elementary_axis *)
  r_input : list (list nat * list nat);          (* input_composition_known_unknown *)
  r_perm : list nat;                             (* axes_permutation *)
  r_first_reduced : nat;                         (* first_reduced_axis *)
  r_added : list (nat * nat);                    (* added_axes, insertion order *)
  r_output : list (list nat)                     (* output_composite_axes *)
}.

(** [d[k]] *)
Definition dict_getr {V} (k : axis) (d : list (axis * V)) : result V :=
  of_option KeyError (dict_get axis_eqb k d).

(** [set.remove] *)
Definition set_remove (x : axis) (l : list axis) : result (list axis) :=
  if axis_mem x l then Ok (filter (fun y => negb (axis_eqb x y)) l) else Err KeyError.
(** [set.update] *)
Definition set_update (l xs : list axis) : list axis := fold_left (fun acc x => set_add x acc) xs l.

Definition is_anon (a : axis) : bool := match a with AxAnon _ _ => true | AxName _ => false end.

(** einops.py:308-329: which identifiers may appear on which side *)
Definition check_identifiers (op : operation) (lft rght : parsed) (axes_names : list pystr) : result unit :=
  let lids := p_identifiers lft in
  let rids := p_identifiers rght in
  match op with
  | OpStr s =>
      if str_eqb s s_rearrange then                                              (* 308-313 *)
        let* _ := raise_if (p_anon lft || p_anon rght) EinopsError in
        raise_if (negb (length (set_diff lids rids ++ set_diff rids lids) =? 0)) EinopsError
      else if str_eqb s s_repeat then                                            (* 314-323 *)
        let* _ := raise_if (negb (length (set_diff lids rids) =? 0)) EinopsError in
        raise_if (negb (length (set_diff (filter (fun a => negb (is_anon a)) rids)
                                         (lids ++ map AxName axes_names)) =? 0)) EinopsError
      else if str_mem s reductions then                                          (* 324-327 *)
        raise_if (negb (length (set_diff rids lids) =? 0)) EinopsError
      else Err EinopsError                                                       (* 328-329 *)
  | OpCallable => raise_if (negb (length (set_diff rids lids) =? 0)) EinopsError
  end.

(** einops.py:336 [_ellipsis + str(i)] *)
Definition ell_axis (i : nat) : axis := AxName (ellipsis_str ++ str_of_nat i).
Definition ell_axes (n : nat) : list axis := map ell_axis (seq 0 n).

(** einops.py:337-343 *)
Definition expand_left (ell : list axis) (cs : list comp) : list (list axis) :=
  flat_map (fun c => match c with CEll => map (fun a => [a]) ell | CGrp l => [l] end) cs.
(** einops.py:345-357 *)
Definition expand_rght (ell : list axis) (cs : list comp) : list (list axis) :=
  flat_map (fun c => match c with
                     | CEll => map (fun a => [a]) ell
                     | CGrp l => [flat_map (fun a => if axis_eqb a ax_ellipsis then ell else [a]) l]
                     end) cs.

(** einops.py:331-368: the compositions with the ellipsis expanded, and the
    updated identifier sets of both sides *)
Definition resolve_ellipsis (lft rght : parsed) (ndim : nat)
    : result (list (list axis) * list (list axis) * list axis * list axis) :=
  if p_has_ellipsis lft then
    let n_other_dims := length (p_composition lft) - 1 in
    let* _ := raise_if (ndim <? n_other_dims) EinopsError in                      (* 333-334 *)
    let ell := ell_axes (ndim - n_other_dims) in                                  (* 335-336 *)
    let* lids := set_remove ax_ellipsis (set_update (p_identifiers lft) ell) in  (* 359-360 *)
    let* rids := if p_has_ellipsis rght                                           (* 361-363 *)
                 then set_remove ax_ellipsis (set_update (p_identifiers rght) ell)
                 else Ok (p_identifiers rght) in
    Ok (expand_left ell (p_composition lft), expand_rght ell (p_composition rght), lids, rids)
  else
    let* _ := raise_if (negb (ndim =? length (p_composition lft))) EinopsError in (* 365-366 *)
    Ok (map comp_axes (p_composition lft), map comp_axes (p_composition rght),
        p_identifiers lft, p_identifiers rght).

(** einops.py:371-377 (and 384-387): the length an axis has by itself *)
Definition own_length (a : axis) : Z :=
  match a with AxAnon _ v => v | AxName _ => unknown_axis_length end.
Definition known_lengths_left (lcomp : list (list axis)) : list (axis * Z) :=
  fold_left (fun d a => dict_set axis_eqb a (own_length a) d) (concat lcomp) [].
(** einops.py:381-388; [rids] in iteration order *)
Definition known_lengths_add (rids : list axis) (d : list (axis * Z)) : list (axis * Z) :=
  fold_left (fun d a => if dict_has axis_eqb a d then d else dict_set axis_eqb a (own_length a) d) rids d.
(** einops.py:390 *)
Definition name2position {V} (d : list (axis * V)) : list (axis * nat) :=
  map (fun '(i, (a, _)) => (a, i)) (enumerate d).
(** einops.py:393-398 *)
Definition mark_expected (U : unicode) (axes_names : list pystr) (d : list (axis * Z))
    : result (list (axis * Z)) :=
  foldM (fun d name =>
           let* _ := raise_if (negb (check_axis_name U false name)) EinopsError in
           let* _ := raise_if (negb (dict_has axis_eqb (AxName name) d)) EinopsError in
           Ok (dict_set axis_eqb (AxName name) expected_axis_length d)) axes_names d.
(** einops.py:400-410 *)
Definition known_unknown (o : orders) (d : list (axis * Z)) (pos : list (axis * nat)) (g : list axis)
    : result (list nat * list nat) :=
  let* vs := mapM (fun a => dict_getr a d) g in
  let tagged := combine g vs in
  let known := set_of (map fst (filter (fun '(_, v) => negb (v =? unknown_axis_length)%Z) tagged)) in
  let unknown := set_of (map fst (filter (fun '(_, v) => (v =? unknown_axis_length)%Z) tagged)) in
  let* _ := raise_if (1 <? length unknown) EinopsError in
  let* _ := raise_if (negb (length unknown + length known =? length g)) AssertionError in
  let* k := mapM (fun a => dict_getr a pos) (o 1 known) in
  let* u := mapM (fun a => dict_getr a pos) (o 2 unknown) in
  Ok (k, u).

Definition axis_index (a : axis) (l : list axis) : result nat := of_option ValueError (index_of axis_eqb a l).

(** einops.py:289-442 [_prepare_transformation_recipe] (lines 412-415 compute an
    unused dictionary and are left out) *)
Definition prepare_recipe (U : unicode) (o : orders) (pattern : pystr) (op : operation)
    (axes_names : list pystr) (ndim : nat) : result recipe :=
  match str_split s_arrow pattern with                                            (* 299 *)
  | [left_str; rght_str] =>
    let* (lft, next) := parse_expression U false false 0 left_str in             (* 300 *)
    let* (rght, _) := parse_expression U false false next rght_str in             (* 301 *)
    let* _ := raise_if (negb (p_has_ellipsis lft) && p_has_ellipsis rght) EinopsError in   (* 304-305 *)
    let* _ := raise_if (p_has_ellipsis lft
                        && match p_ell_par lft with Some b => b | None => false end) EinopsError in (* 306-307 *)
    let* _ := check_identifiers op lft rght axes_names in
    let* (lcomp, rcomp, lids, rids) := resolve_ellipsis lft rght ndim in
    let d1 := known_lengths_left lcomp in
    let d2 := known_lengths_add (o 0 rids) d1 in
    let pos := name2position d2 in
    let* d3 := mark_expected U axes_names d2 in
    let* input := mapM (known_unknown o d3 pos) lcomp in
    let* output := mapM (mapM (fun a => dict_getr a pos)) rcomp in                (* 417-419 *)
    let ordered_left := concat lcomp in                                           (* 421 *)
    let ordered_rght := concat rcomp in                                           (* 422 *)
    let reduced := filter (fun a => negb (axis_mem a rids)) ordered_left in       (* 423 *)
    let order_after := filter (fun a => axis_mem a lids) ordered_rght ++ reduced in (* 424 *)
    let* perm := mapM (fun a => axis_index a ordered_left) order_after in         (* 425 *)
    let* added := mapM (fun '(i, a) => let* p := dict_getr a pos in Ok (i, p))
                    (filter (fun '(_, a) => negb (axis_mem a lids)) (enumerate ordered_rght)) in (* 426-430 *)
    let* n2e := mapM (fun s => let* p := dict_getr (AxName s) pos in Ok (s, p)) axes_names in   (* 436 *)
    Ok {| r_elementary := map snd d3;
          r_name2elem := n2e;
          r_input := input;
          r_perm := perm;
          r_first_reduced := length order_after - length reduced;                 (* 432 *)
          r_added := added;
          r_output := output |}
  | _ => Err ValueError
  end.

(** ** Lengths

    Dimensions may be Python ints or symbols of the framework; the code only uses
    [*], [//], and (guarded by [isinstance(_, int)]) [%] and [!=]. *)
Record dim_ops (D : Type) := {
  d_of_Z : Z -> D;                     (* a Python int *)
  d_int : D -> option Z;               (* isinstance(x, int) *)
  d_mul : D -> D -> D;
  d_floordiv : D -> D -> result D
}.
Arguments d_of_Z {D} _ _.
Arguments d_int {D} _ _.
Arguments d_mul {D} _ _ _.
Arguments d_floordiv {D} _ _ _.

(** Python ints *)
Definition int_ops : dim_ops Z := {|
  d_of_Z := fun z => z;
  d_int := fun z => Some z;
  d_mul := Z.mul;
  d_floordiv := fun a b => if (b =? 0)%Z then Err ZeroDivisionError else Ok (a / b)%Z
|}.

Section Reconstruct.
  Context {D : Type} (O : dim_ops D).

  (** einops.py:29-34 [_product] *)
  Definition product (l : list D) : D := fold_left (d_mul O) l (d_of_Z O 1).

  (** einops.py:105 [CookedRecipe] *)
  Record cooked := {
    k_init : option (list D);
    k_reorder : option (list nat);
    k_reduced : list nat;
    k_added : list (nat * D);
    k_final : option (list D);
    k_naxes : nat
  }.

  (** einops.py:183, 187: [isinstance(length, int) and isinstance(known_product, int) and ...] *)
  Definition both_ints (a b : D) : option (Z * Z) :=
    match d_int O a, d_int O b with Some x, Some y => Some (x, y) | _, _ => None end.

  (** einops.py:171-195: body of the loop over input axes; state is
      (axes_lengths, need_init_reshape) *)
  Definition infer_step (shape : list D) (st : list D * bool) (x : nat * (list nat * list nat))
      : result (list D * bool) :=
    let '(axes_lengths, need_init) := st in
    let '(input_axis, (known, unknown)) := x in
    let* length_ := list_get shape input_axis in                                  (* 172 *)
    match known, unknown with
    | [], [u] =>                                                                  (* 173-176 *)
        let* al := list_upd axes_lengths u length_ in Ok (al, need_init)
    | _, _ =>
        let* ks := mapM (list_get axes_lengths) known in
        let known_product := fold_left (d_mul O) ks (d_of_Z O 1) in               (* 178-180 *)
        let* al :=
          match unknown with
          | [] =>                                                                 (* 182-184 *)
              match both_ints length_ known_product with
              | Some (l, k) => if (l =? k)%Z then Ok axes_lengths else Err EinopsError
              | None => Ok axes_lengths
              end
          | u :: _ =>                                                             (* 185-192 *)
              let* _ := match both_ints length_ known_product with
                        | Some (l, k) => if (k =? 0)%Z then Err ZeroDivisionError
                                         else raise_if (negb (l mod k =? 0)%Z) EinopsError
                        | None => Ok tt
                        end in
              let* q := d_floordiv O length_ known_product in
              list_upd axes_lengths u q
          end in
        Ok (al, if length known + length unknown =? 1 then need_init else true)   (* 194-195 *)
    end.

  (** einops.py:155-224 [_reconstruct_from_shape_uncached] *)
  Definition reconstruct (r : recipe) (shape : list D) (axes_dims : list (pystr * D)) : result cooked :=
    let axes_lengths := map (d_of_Z O) (r_elementary r) in                        (* 167 *)
    let* axes_lengths :=                                                          (* 168-169 *)
      foldM (fun al '(name, dim) =>
               let* p := of_option KeyError (dict_get str_eqb name (r_name2elem r)) in
               list_upd al p dim) axes_dims axes_lengths in
    let* (axes_lengths, need_init) :=
      foldM (infer_step shape) (enumerate (r_input r)) (axes_lengths, false) in
    let init_shapes := if need_init then Some (firstn (length (r_perm r)) axes_lengths) else None in (* 200 *)
    let* groups := mapM (mapM (list_get axes_lengths)) (r_output r) in            (* 204-205 *)
    let final_shapes := map product groups in                                     (* 206 *)
    let need_final := existsb (fun g => negb (length g =? 1)) groups in           (* 207-208 *)
    let* added := mapM (fun '(p, e) => let* l := list_get axes_lengths e in Ok (p, l)) (r_added r) in (* 210-212 *)
    Ok {| k_init := init_shapes;
          k_reorder := if list_eq_dec Nat.eq_dec (r_perm r) (seq 0 (length (r_perm r)))
                       then None else Some (r_perm r);                            (* 219-221 *)
          k_reduced := seq (r_first_reduced r) (length (r_perm r) - r_first_reduced r); (* 215 *)
          k_added := added;
          k_final := if need_final then Some final_shapes else None;              (* 223 *)
          k_naxes := length added + length (r_perm r) |}.                         (* 217 *)
End Reconstruct.
Arguments cooked : clear implicits.
