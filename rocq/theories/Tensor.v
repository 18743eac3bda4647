(** * Reference tensors and array primitives

    A tensor is a shape together with its elements in C order (row-major).
    The primitives below are executable definitions of what the array libraries
    document for the calls einops makes (numpy names are used; the calls appear
    in einops/_backends.py).  They are the trusted model of the array library:
    dtypes and rounding are not represented, strides and views only in Strides.v, and
    every error the library raises is [BackendError]. *)
From Verif Require Import Py.

Record tensor (A : Type) := mkT { shp : list nat; dat : list A }.
Arguments mkT {A} shp dat.
Arguments shp {A} t.
Arguments dat {A} t.

(** number of elements of a shape *)
Definition prodn (s : list nat) : nat := fold_right Nat.mul 1 s.

(** an index tuple is within a shape *)
Fixpoint inb (s idx : list nat) : bool :=
  match s, idx with
  | [], [] => true
  | d :: s', i :: idx' => (i <? d) && inb s' idx'
  | _, _ => false
  end.

(** C-order position of an index tuple *)
Fixpoint ravel (s idx : list nat) : nat :=
  match s, idx with
  | _ :: s', i :: idx' => i * prodn s' + ravel s' idx'
  | _, _ => 0
  end.

(** all index tuples of a shape, in C order *)
Fixpoint indices (s : list nat) : list (list nat) :=
  match s with
  | [] => [[]]
  | d :: s' => flat_map (fun i => map (cons i) (indices s')) (seq 0 d)
  end.

Definition wf {A} (t : tensor A) : Prop := length (dat t) = prodn (shp t).

(** [t[idx]] *)
Definition get {A} (t : tensor A) (idx : list nat) : option A :=
  if inb (shp t) idx then nth_error (dat t) (ravel (shp t) idx) else None.

(** tensor of shape [s] whose element at [idx] is [f idx] *)
Definition tabulate {A} (s : list nat) (f : list nat -> result A) : result (tensor A) :=
  let* d := mapM f (indices s) in Ok (mkT s d).

(** element access inside a primitive *)
Definition getr {A} (t : tensor A) (idx : list nat) : result A :=
  of_option BackendError (get t idx).

Definition nat_mem (k : nat) (l : list nat) : bool := existsb (Nat.eqb k) l.

Fixpoint nat_nodupb (l : list nat) : bool :=
  match l with [] => true | x :: l' => negb (nat_mem x l') && nat_nodupb l' end.

(** ** reshape

    Libraries differ in which negative entries mean "infer this dimension":
    numpy accepts any negative number ([lib = true]), the others only -1
    ([lib = false]); the theorems hold for both.  At most one such entry is
    allowed; ambiguous inference (the other entries multiply to 0) and any other
    negative entry are errors; otherwise the number of elements must agree. *)
Definition all_nonneg (s : list Z) : bool := forallb (fun d => (0 <=? d)%Z) s.
Definition to_nats (s : list Z) : list nat := map Z.to_nat s.
Definition is_infer (lib : bool) (d : Z) : bool := if lib then (d <? 0)%Z else (d =? -1)%Z.
Definition resolve_shape (lib : bool) (size : nat) (s : list Z) : result (list nat) :=
  if all_nonneg s
  then if prodn (to_nats s) =? size then Ok (to_nats s) else Err BackendError
  else
    let others := filter (fun d => negb (is_infer lib d)) s in
    if (length (filter (is_infer lib) s) =? 1) && all_nonneg others
    then let p := prodn (to_nats others) in
         if p =? 0 then Err BackendError
         else if size mod p =? 0
              then Ok (map (fun d => if is_infer lib d then size / p else Z.to_nat d) s)
              else Err BackendError
    else Err BackendError.
Definition t_reshape {A} (lib : bool) (t : tensor A) (s : list Z) : result (tensor A) :=
  let* s' := resolve_shape lib (prodn (shp t)) s in Ok (mkT s' (dat t)).

(** ** transpose / permute: [out.shape[k] = t.shape[axes[k]]] *)
Definition is_permutation (axes : list nat) (n : nat) : bool :=
  (length axes =? n) && forallb (fun a => a <? n) axes && nat_nodupb axes.
Definition t_transpose {A} (t : tensor A) (axes : list nat) : result (tensor A) :=
  let n := length (shp t) in
  if is_permutation axes n
  then tabulate (map (fun a => nth a (shp t) 0) axes)
         (fun idx =>
            getr t (map (fun a => match index_of Nat.eqb a axes with
                                  | Some k => nth k idx 0 | None => 0 end) (seq 0 n)))
  else Err BackendError.

(** ** expand_dims / unsqueeze: new axis of length 1 at position [pos] *)
Definition insert_at {A} (pos : nat) (x : A) (l : list A) : list A := firstn pos l ++ x :: skipn pos l.
Definition t_expand_dims {A} (t : tensor A) (pos : nat) : result (tensor A) :=
  if pos <=? length (shp t) then Ok (mkT (insert_at pos 1 (shp t)) (dat t)) else Err BackendError.

Fixpoint map2 {A B C} (f : A -> B -> C) (l : list A) (m : list B) : list C :=
  match l, m with a :: l', b :: m' => f a b :: map2 f l' m' | _, _ => [] end.

(** ** tile: repeat the whole tensor [reps[k]] times along axis [k] *)
Definition t_tile {A} (t : tensor A) (reps : list Z) : result (tensor A) :=
  if (length reps =? length (shp t)) && all_nonneg reps
  then tabulate (map2 Nat.mul (shp t) (to_nats reps))
         (fun idx => getr t (map2 (fun i d => i mod d) idx (shp t)))
  else Err BackendError.

(** ** expand (torch/paddle/oneflow): a dimension of length 1 may be expanded to
    any length, -1 keeps the dimension, otherwise lengths must agree *)
Definition expand_dim (d : nat) (r : Z) : result nat :=
  if (r =? -1)%Z then Ok d
  else if (r <? 0)%Z then Err BackendError
  else if d =? 1 then Ok (Z.to_nat r)
  else if (Z.to_nat r =? d) then Ok d else Err BackendError.
Fixpoint expand_shape (s : list nat) (r : list Z) : result (list nat) :=
  match s, r with
  | [], [] => Ok []
  | d :: s', z :: r' => let* n := expand_dim d z in let* ns := expand_shape s' r' in Ok (n :: ns)
  | _, _ => Err BackendError
  end.
Definition t_expand {A} (t : tensor A) (sizes : list Z) : result (tensor A) :=
  let* s' := expand_shape (shp t) sizes in
  tabulate s' (fun idx => getr t (map2 (fun i d => if d =? 1 then 0 else i) idx (shp t))).

(** ** broadcast_to (array API; same number of dimensions): as [t_expand] but
    -1 is not special *)
Definition t_broadcast_to {A} (t : tensor A) (sizes : list Z) : result (tensor A) :=
  if all_nonneg sizes then t_expand t sizes else Err BackendError.

(** ** reduction over a set of axes

    [red] receives the list of the reduced elements in C order of the reduced
    axes.  [merge mask kept red] interleaves a kept and a reduced index. *)
Fixpoint merge {A} (mask : list bool) (kept red : list A) : list A :=
  match mask with
  | [] => []
  | true :: m => match red with r :: red' => r :: merge m kept red' | [] => merge m kept red end
  | false :: m => match kept with k :: kept' => k :: merge m kept' red | [] => merge m kept red end
  end.
Fixpoint select {A} (b : bool) (mask : list bool) (l : list A) : list A :=
  match mask, l with
  | m :: mask', x :: l' => if Bool.eqb m b then x :: select b mask' l' else select b mask' l'
  | _, _ => []
  end.
Definition t_reduce {A} (red : list A -> result A) (t : tensor A) (axes : list nat) : result (tensor A) :=
  let n := length (shp t) in
  if forallb (fun a => a <? n) axes && nat_nodupb axes
  then let mask := map (fun k => nat_mem k axes) (seq 0 n) in
       tabulate (select false mask (shp t))
         (fun idx => let* xs := mapM (fun r => getr t (merge mask idx r))
                                  (indices (select true mask (shp t))) in
                     red xs)
  else Err BackendError.

(** ** stack: new leading axis; all shapes must agree *)
Definition shape_eqb (a b : list nat) : bool := if list_eq_dec Nat.eq_dec a b then true else false.
Definition t_stack {A} (ts : list (tensor A)) : result (tensor A) :=
  match ts with
  | [] => Err BackendError
  | t0 :: _ =>
      if forallb (fun t => shape_eqb (shp t) (shp t0)) ts
      then Ok (mkT (length ts :: shp t0) (flat_map dat ts))
      else Err BackendError
  end.

(** ** concatenate along [axis]: all other dimensions must agree.
    Element [idx] is found by walking through the tensors. *)
Definition replace_nth {A} (k : nat) (x : A) (l : list A) : list A :=
  firstn k l ++ match skipn k l with [] => [] | _ :: l' => x :: l' end.
Fixpoint concat_get {A} (ts : list (tensor A)) (axis : nat) (idx : list nat) : result A :=
  match ts with
  | [] => Err BackendError
  | t :: ts' =>
      let i := nth axis idx 0 in
      let d := nth axis (shp t) 0 in
      if i <? d then getr t idx else concat_get ts' axis (replace_nth axis (i - d) idx)
  end.
Definition t_concat {A} (ts : list (tensor A)) (axis : nat) : result (tensor A) :=
  match ts with
  | [] => Err BackendError
  | t0 :: _ =>
      if (axis <? length (shp t0))
         && forallb (fun t => shape_eqb (replace_nth axis 0 (shp t)) (replace_nth axis 0 (shp t0))) ts
      then tabulate (replace_nth axis (list_sum (map (fun t => nth axis (shp t) 0) ts)) (shp t0))
             (concat_get ts axis)
      else Err BackendError
  end.

(** ** basic slicing of one axis, [t[:, ..., lo:hi]] with Python's rules:
    negative bounds count from the end, out-of-range bounds are clipped *)
Definition slice_bound (d : nat) (z : Z) : nat :=
  let z' := if (z <? 0)%Z then (z + Z.of_nat d)%Z else z in
  Nat.min d (Z.to_nat z').
Definition t_slice {A} (t : tensor A) (axis : nat) (lo hi : Z) : result (tensor A) :=
  if axis <? length (shp t)
  then let d := nth axis (shp t) 0 in
       let a := slice_bound d lo in
       let b := slice_bound d hi in
       tabulate (replace_nth axis (b - a) (shp t))
         (fun idx => getr t (replace_nth axis (a + nth axis idx 0) idx))
  else Err BackendError.
