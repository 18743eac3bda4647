(** * Model of the descriptions of layers

    [__repr__] of the layers (layers/__init__.py, _einmix.py) and [get_config] of
    EinMix in tensorflow.py. *)
From Verif Require Import Py Parsing Recipe Ops Layers EinMix.

Definition c_quote : N := 39.
Definition c_quotes : N := 34.
Definition c_back : N := 92.

(** str(z) *)
Definition str_of_int (z : Z) : pystr :=
  match Z.to_int z with
  | Decimal.Pos u => uint_codes u
  | Decimal.Neg u => lit "-" ++ uint_codes u
  end.

(** repr of a string.  [printable]: str.isprintable of characters outside ASCII *)
Section Repr.
  Context (printable : N -> bool).
  Definition hex_digit (d : N) : N := if (d <? 10)%N then (48 + d)%N else (87 + d)%N.
  Fixpoint hex (width : nat) (c : N) : pystr :=
    match width with O => [] | S w => hex w (c / 16)%N ++ [hex_digit (c mod 16)%N] end.
  Definition escape (q c : N) : pystr :=
    if (c =? q)%N || (c =? c_back)%N then [c_back; c]
    else if (c =? 9)%N then lit "\t"
    else if (c =? 10)%N then lit "\n"
    else if (c =? 13)%N then lit "\r"
    else if (c <? 32)%N || (c =? 127)%N then lit "\x" ++ hex 2 c
    else if (c <? 127)%N then [c]
    else if printable c then [c]
    else if (c <? 256)%N then lit "\x" ++ hex 2 c
    else if (c <? 65536)%N then lit "\u" ++ hex 4 c
    else lit "\U" ++ hex 8 c.
  Definition has_char (c : N) (s : pystr) : bool := existsb (N.eqb c) s.
  Definition str_repr (s : pystr) : pystr :=
    let q := if has_char c_quote s && negb (has_char c_quotes s) then c_quotes else c_quote in
    [q] ++ flat_map (escape q) s ++ [q].

  (** for axis, length in self.axes_lengths.items(): params += ", {}={}".format(axis, length) *)
  Definition add_lengths (sizes : list (pystr * Z)) (params : pystr) : pystr :=
    fold_left (fun params '(axis, length) => params ++ lit ", " ++ axis ++ lit "=" ++ str_of_int length) sizes params.
  (** "{}({})".format(self.__class__.__name__, params) *)
  Definition as_call (class_name params : pystr) : pystr := class_name ++ lit "(" ++ params ++ lit ")".

  Context {T : Type} (fun_repr : (T -> list nat -> result T) -> pystr).
  (** layers/__init__.py:28-32 *)
  Definition Rearrange_repr (class_name : pystr) (L : layer T) : pystr :=
    as_call class_name (add_lengths (ly_sizes L) (str_repr (ly_pattern L))).
  (** layers/__init__.py:79-83; [fun_repr]: repr of a callable *)
  Definition Reduce_repr (class_name : pystr) (L : layer T) : pystr :=
    let red := match ly_red L with RStr s => str_repr s | RCall f => fun_repr f end in
    as_call class_name (add_lengths (ly_sizes L) (str_repr (ly_pattern L) ++ lit ", " ++ red)).
  (** _einmix.py:202-209: quotes are put around the last two strings, nothing is escaped *)
  Definition EinMix_repr (class_name : pystr) (M : einmix T) : pystr :=
    let params := str_repr (em_pattern M) in
    let params := params ++ lit ", '" ++ em_weight_text M ++ lit "'" in
    let params := match em_bias_text M with Some b => params ++ lit ", '" ++ b ++ lit "'" | None => params end in
    as_call class_name (add_lengths (em_sizes M) params).
End Repr.

(** tensorflow.py:97-103 [get_config] of EinMix; the library restores with
    [cls( **config)] (parameters of the constructor: _einmix.py:17) *)
Section Config.
  Context {T : Type} (U : unicode) (os os' : nat -> orders).
  Notation config := (list (pystr * config_value T)).
  Definition EinMix_config (M : einmix T) : config :=
    merge [(lit "pattern", VStr (em_pattern M)); (lit "weight_shape", VStr (em_weight_text M));
           (lit "bias_shape", match em_bias_text M with Some b => VStr b | None => VNone end)] (em_sizes M).
  Definition EinMix_from_config (c : config) : result (einmix T) :=
    match dict_get str_eqb (lit "pattern") c, dict_get str_eqb (lit "weight_shape") c with
    | Some (VStr pattern), Some (VStr weight_shape) =>
        let* bias_shape := match dict_get str_eqb (lit "bias_shape") c with
                           | Some (VStr b) => Ok (Some b)
                           | Some VNone | None => Ok None
                           | _ => Err TypeError
                           end in
        let* sizes := rest_of c [lit "pattern"; lit "weight_shape"; lit "bias_shape"] in
        EinMix U os os' pattern weight_shape bias_shape sizes
    | _, _ => Err TypeError
    end.
End Config.
