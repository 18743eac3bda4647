(** * Specification: what _EinmixDebugger accepts

    Part of the specification. *)
From Verif Require Import Py SpecGrammar SpecPattern SpecEinMix.

(** the conditions of [mix_ok] apart from the one about lengths that cannot be found *)
Record debug_ok (U : unicode) (bias_text : option pystr) (sizes : list (pystr * Z)) (L R W : expr) : Prop := {
  do_free : forall s, In s (map fst sizes) -> ~ In s [lit "self"; lit "pattern"; lit "weight_shape"; lit "bias_shape"];
  do_names : incl (keys R) (keys L ++ keys W);
  do_dots : has_dots L = has_dots R;
  do_flat : ~ grouped_dots L;
  do_numbers : has_numbers L = false /\ has_numbers R = false;
  do_weight : forall i, In i W -> exists s, i = Atom (AName s);
  do_sized : incl (keys W) (map fst sizes);
  do_used : incl (map fst sizes) (keys L ++ keys W);
  do_needed : incl (keys W) (keys L ++ keys R);
  do_bias : forall text, bias_text = Some text -> exists B, bias_fits U text sizes R B;
  do_summed : forall s, In s (keys W) -> ~ In s (keys R) -> ~ In (s, 0%Z) sizes;
  do_letters : length (nodup str_eq_dec (written_names L ++ written_names R ++ written_names W)) <= 26
}.

(** the axes of a side, without parentheses and without the axes of length 1 written [1] *)
Definition axes_of (E : expr) : list atom := filter (fun a => match a with ANum 1%Z => false | _ => true end) (atoms E).
Definition spread (E : expr) : expr := map Atom (axes_of E).
(** every part of a side is one axis *)
Definition one_each (E : expr) : Prop := forall i, In i E -> length (axes_of [i]) = 1.
(** the ellipsis, if there is one, is not in parentheses *)
Definition open_dots (E : expr) : Prop := forall g, In (Group g) E -> ~ In ADots g.
