(** * The functions users call, and vocabulary for stating their properties

    A [runtime] collects everything a call depends on besides its arguments: the
    interpreter's character database, the iteration orders of sets, and the array
    library. *)
From Verif Require Import Py Tensor Parsing Recipe Ops Backends SpecGrammar SpecPattern.

Record runtime (A : Type) := mkR {
  rt_unicode : unicode;
  rt_orders : orders;
  rt_framework : framework;
  rt_lib : bool;                            (* reshape accepts any negative number as "infer" *)
  rt_red : pystr -> list A -> result A;     (* the reductions of the library *)
  rt_isf : tensor A -> bool;                (* floating dtype *)
  rt_num : nat -> A                         (* integers as elements *)
}.
Arguments rt_unicode {A} r.
Arguments rt_orders {A} r.
Arguments rt_framework {A} r.
Arguments rt_lib {A} r.
Arguments rt_red {A} r.
Arguments rt_isf {A} r.
Arguments rt_num {A} r.

Record runtime_ok {A} (r : runtime A) : Prop := {
  ro_unicode : unicode_ok (rt_unicode r);
  ro_orders : orders_ok (rt_orders r)
}.

Definition rt_backend {A} (r : runtime A) : backend (tensor A) Z :=
  backend_of (rt_lib r) (rt_red r) (rt_isf r) (rt_num r) (rt_framework r).
Definition rt_ns {A} (r : runtime A) : array_ns (tensor A) := array_api_ns (rt_lib r) (rt_red r).

Section Functions.
  Context {A : Type} (r : runtime A).
  Implicit Types (x : input (tensor A)) (pattern : pystr) (sizes : list (pystr * Z)).

  (** einops.rearrange, einops.reduce, einops.repeat *)
  Definition rearrange x pattern sizes := api_rearrange (rt_unicode r) (rt_orders r) int_ops (rt_backend r) x pattern sizes.
  Definition reduce x pattern red sizes := api_reduce (rt_unicode r) (rt_orders r) int_ops (rt_backend r) x pattern red sizes.
  Definition repeat_ x pattern sizes := api_repeat (rt_unicode r) (rt_orders r) int_ops (rt_backend r) x pattern sizes.

  (** einops.array_api.rearrange, reduce, repeat *)
  Definition xp_rearrange x pattern sizes := aa_rearrange (rt_unicode r) (rt_orders r) (rt_ns r) x pattern sizes.
  Definition xp_reduce_ x pattern red sizes := aa_reduce (rt_unicode r) (rt_orders r) (rt_ns r) x pattern red sizes.
  Definition xp_repeat x pattern sizes := aa_repeat (rt_unicode r) (rt_orders r) (rt_ns r) x pattern sizes.
End Functions.

(** ** Frameworks *)

(** frameworks that add axes by expanding, where the length -1 means "leave as it is" *)
Definition expands (f : framework) : bool :=
  match f with Torch | Oneflow | Paddle | TorchJit => true | _ => false end.
(** where -1 is special, it is not given as the length of a new axis *)
Definition repeat_sizes_ok {A} (r : runtime A) (pattern : pystr) (sizes : list (pystr * Z)) : Prop :=
  expands (rt_framework r) = true ->
  forall L R s, reads (rt_unicode r) pattern L R -> In (s, (-1)%Z) sizes -> In s (keys L).
(** frameworks that reduce one axis after the other *)
Definition one_by_one (f : framework) (s : pystr) : bool :=
  match f with
  | Oneflow | Tinygrad => true
  | Torch | TorchJit => str_mem s [lit "any"; lit "all"; lit "prod"]
  | _ => false
  end.
(** which reductions a framework's backend knows *)
Definition has_reduction (f : framework) (s : pystr) : bool :=
  match f with TorchJit => negb (str_mem s [lit "any"; lit "all"]) | _ => true end.

(** ** Reductions *)
Section Reductions.
  Context {A : Type}.
  Implicit Types (red : list A -> result A).

  (** reducing a rectangular list of lists row by row and then the results is
      reducing everything *)
  Definition splits red : Prop :=
    forall n xss, Forall (fun xs => length xs = n) xss ->
      red (concat xss) = (let* ys := mapM red xss in red ys).
  (** the order of the elements does not matter *)
  Definition symmetric red : Prop := forall vs vs', Permutation vs vs' -> red vs = red vs'.
  (** copies of one value reduce to that value *)
  Definition idempotent_on_copies red : Prop := forall v n, n <> 0 -> red (List.repeat v n) = Ok v.
End Reductions.

(** the same runtime with another framework *)
Definition with_framework {A} (r : runtime A) (f : framework) : runtime A :=
  mkR A (rt_unicode r) (rt_orders r) f (rt_lib r) (rt_red r) (rt_isf r) (rt_num r).

(** the same runtime with another iteration order of sets *)
Definition with_orders {A} (r : runtime A) (o : orders) : runtime A :=
  mkR A (rt_unicode r) o (rt_framework r) (rt_lib r) (rt_red r) (rt_isf r) (rt_num r).

(** what is assumed about a reduction when the framework reduces one axis at a time *)
Definition reduction_fits {A} (r : runtime A) (s : pystr) : Prop :=
  one_by_one (rt_framework r) s = true -> splits (rt_red r s).
(** mean is only defined on floating tensors *)
Definition float_if_mean {A} (r : runtime A) (s : pystr) : Prop :=
  s = lit "mean" -> forall t, rt_isf r t = true.
