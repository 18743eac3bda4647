(** * Specification: EinMix

    Part of the specification.  [L] and [R] are the two sides of the pattern, [W]
    the axes of the weight, [B] the axes of the bias. *)
From Verif Require Import Py Tensor SpecSem SpecGrammar SpecPattern SpecOps.

(** the names that are written, without the ellipsis *)
Definition written_names (E : expr) : list pystr := filter (fun s => negb (str_eqb s ell_name)) (keys E).

(** all axes of the bias come after the ellipsis of the output *)
Definition after_dots (B R : expr) : Prop :=
  forall pre post, atoms R = pre ++ ADots :: post -> forall s, In (AName s) pre -> ~ In s (keys B).

Record bias_fits (U : unicode) (text : pystr) (sizes : list (pystr * Z)) (R B : expr) : Prop := {
  bf_written : written U text B;
  bf_output : incl (keys B) (keys R) /\ has_numbers B = false;
  bf_sized : incl (keys B) (map fst sizes);
  bf_after : after_dots B R
}.

(** When a layer can be made *)
Record mix_ok (U : unicode) (bias_text : option pystr) (sizes : list (pystr * Z)) (L R W : expr) : Prop := {
  mo_free : forall s, In s (map fst sizes) -> ~ In s [lit "self"; lit "pattern"; lit "weight_shape"; lit "bias_shape"];
  mo_names : incl (keys R) (keys L ++ keys W);
  mo_dots : has_dots L = has_dots R;
  mo_flat : ~ grouped_dots L;
  mo_numbers : has_numbers L = false /\ has_numbers R = false;
  (** the weight is a list of names *)
  mo_weight : forall i, In i W -> exists s, i = Atom (AName s);
  mo_sized : incl (keys W) (map fst sizes);
  mo_used : incl (map fst sizes) (keys L ++ keys W);
  mo_needed : incl (keys W) (keys L ++ keys R);
  (** at most one length per group is left to be found; not checked when every
      group is one axis *)
  mo_groups : forall g, In g (left_groups 0 L) -> length (filter (unknown (map fst sizes)) g) <= 1;
  mo_bias : forall text, bias_text = Some text -> exists B, bias_fits U text sizes R B;
  (** no axis of the weight that is summed over has length 0 *)
  mo_summed : forall s, In s (keys W) -> ~ In s (keys R) -> ~ In (s, 0%Z) sizes;
  (** no more names than letters *)
  mo_letters : length (nodup str_eq_dec (written_names L ++ written_names R ++ written_names W)) <= 26
}.

(** lengths of the parameters, from the lengths of the axes *)
Definition weight_dims (len : pystr -> Z) (W : expr) : list Z := map len (keys W).
Definition bias_dims (len : pystr -> Z) (B R : expr) : list Z :=
  map (fun s => if str_mem s (keys B) then len s else 1%Z) (written_names R).

(** what is assumed of [result += bias]: when the bias can be broadcast to the shape
    of [result], each element of the bias is added wherever it belongs *)
Section Library.
  Context {A : Type} (add : A -> A -> A).
  (** dimensions are compared from the right *)
  Definition broadcasts_to (s t : list nat) : Prop :=
    length s <= length t /\ Forall2 (fun d n => d = 1 \/ d = n) s (skipn (length t - length s) t).
  Definition broadcast_index (s : list nat) (idx : list nat) : list nat :=
    map2 (fun d i => if d =? 1 then 0 else i) s (skipn (length idx - length s) idx).
  Definition iadd_contract (iadd : tensor A -> tensor A -> result (tensor A)) : Prop :=
    forall t b, wf t -> wf b -> broadcasts_to (shp b) (shp t) ->
      exists y, iadd t b = Ok y /\ wf y /\ shp y = shp t /\
        forall idx u v, get t idx = Some u -> get b (broadcast_index (shp b) idx) = Some v -> get y idx = Some (add u v).
End Library.

Section Mixing.
  Context {A : Type} (add mul : A -> A -> A) (zero : A).
  Implicit Types x y w b : tensor A.

  (** the elements of the weight when the axes [axs] run over all their values *)
  Definition weight_elements w (W : expr) (len : label -> nat) (axs : list label) (ix : label -> nat) : list (option A) :=
    map (fun v => get w (map (assign label_eqb ix axs v) (map LName (keys W)))) (indices (map len axs)).
  (** where the bias of an output element is found *)
  Definition bias_index (B R : expr) (ix : label -> nat) : list nat :=
    map (fun s => if str_mem s (keys B) then ix (LName s) else 0) (written_names R).

  (** [y] has the shape of the output, and at every assignment of indices its
      element is the sum, over the axes missing from the output, of the products
      of the elements of [x] and [w], plus the bias *)
  Definition mixes (gl gr : list (list label)) (W R : expr) (len : label -> nat) x w (bias : option (expr * tensor A)) y : Prop :=
    wf y /\ shp y = gshape len gr /\
    forall ix, within len ix (concat gr) ->
      exists xs ws, elements x len gl (missing gl gr) ix = map Some xs /\
        weight_elements w W len (missing gl gr) ix = map Some ws /\
        let total := fold_right add zero (map2 mul xs ws) in
        match bias with
        | None => get y (gindex len ix gr) = Some total
        | Some (B, b) => exists c, get b (bias_index B R ix) = Some c /\ get y (gindex len ix gr) = Some (add total c)
        end.
End Mixing.
