(** * Specification: tensors that agree element by element

    Part of the specification.  [R] relates the elements of one tensor to those of
    another, possibly of another type. *)
From Verif Require Import Py Tensor Parsing Recipe Ops Backends Api.

Section Related.
  Context {A B : Type} (R : A -> B -> Prop).

  (** same shape, related elements *)
  Definition alike (t : tensor A) (t' : tensor B) : Prop := shp t = shp t' /\ Forall2 R (dat t) (dat t').
  Definition alike_input (x : input (tensor A)) (x' : input (tensor B)) : Prop :=
    match x, x' with One t, One t' => alike t t' | Many ts, Many ts' => Forall2 alike ts ts' | _, _ => False end.

  (** both calls return, or both raise the same exception *)
  Definition both {X Y} (P : X -> Y -> Prop) (m : result X) (m' : result Y) : Prop :=
    match m, m' with Ok x, Ok y => P x y | Err e, Err e' => e = e' | _, _ => False end.

  (** one interpreter and one framework; the tensors may have other dtypes *)
  Record runtimes_alike (r : runtime A) (r' : runtime B) : Prop := {
    ra_unicode : rt_unicode r = rt_unicode r';
    ra_orders : rt_orders r = rt_orders r';
    ra_framework : rt_framework r = rt_framework r';
    ra_lib : rt_lib r = rt_lib r'
  }.

  (** the frameworks have the same code for both names *)
  Definition same_code (s s' : pystr) : Prop :=
    s = s' \/ (In s [lit "min"; lit "max"; lit "sum"] /\ In s' [lit "min"; lit "max"; lit "sum"]) \/
    (In s [lit "any"; lit "all"] /\ In s' [lit "any"; lit "all"]).

  (** related values are reduced to related values, or both cannot be reduced; [mean] asks
      for the dtype *)
  Definition floats_alike (r : runtime A) (r' : runtime B) (s : pystr) : Prop :=
    s = lit "mean" -> forall t t', alike t t' -> rt_isf r t = rt_isf r' t'.
  Definition reductions_alike (r : runtime A) (r' : runtime B) (red : reduction (tensor A)) (red' : reduction (tensor B)) : Prop :=
    match red, red' with
    | RStr s, RStr s' => same_code s s' /\ floats_alike r r' s /\ (In s reductions -> forall vs vs', Forall2 R vs vs' -> both R (rt_red r s vs) (rt_red r' s' vs'))
    | RCall f, RCall f' => forall t t' axes, alike t t' -> both alike (f t axes) (f' t' axes)
    | _, _ => False
    end.
End Related.

(** a function applied to every element; two tensors of one shape joined by an operation *)
Definition t_map {A B} (f : A -> B) (t : tensor A) : tensor B := mkT (shp t) (map f (dat t)).
Definition t_zip {A B C} (f : A -> B -> C) (t : tensor A) (u : tensor B) : tensor C := mkT (shp t) (map2 f (dat t) (dat u)).
Definition r_map {X Y} (f : X -> Y) (m : result X) : result Y := let* x := m in Ok (f x).
Definition input_map {A B} (f : A -> B) (x : input (tensor A)) : input (tensor B) :=
  match x with One t => One (t_map f t) | Many ts => Many (map (t_map f) ts) end.
Definition r_zip {X Y Z} (f : X -> Y -> Z) (m : result X) (m' : result Y) : result Z :=
  let* x := m in let* y := m' in Ok (f x y).
(** a reduction maps values [f v] to [f] of what it maps the values [v] to *)
Definition red_maps {A B} (f : A -> B) (red : list A -> result A) (red' : list B -> result B) : Prop :=
  forall vs, red' (map f vs) = r_map f (red vs).
(** the same for two lists of one length; whether a list can be reduced does not depend on
    the values *)
Definition red_zips {A B C} (f : A -> B -> C) (red : list A -> result A) (red' : list B -> result B) (red'' : list C -> result C) : Prop :=
  forall vs ws, length vs = length ws ->
    match red vs, red' ws with
    | Ok a, Ok b => red'' (map2 f vs ws) = Ok (f a b)
    | Err e, Err e' => e = e' /\ red'' (map2 f vs ws) = Err e
    | _, _ => False
    end.
(** two tensors of one shape *)
Definition same_shape {A B} (t : tensor A) (u : tensor B) : Prop := shp t = shp u /\ length (dat t) = length (dat u).
