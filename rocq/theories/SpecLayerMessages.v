(** * Specification: what the error messages of the layers claim

    Part of the specification.  [true_of_call] (SpecMessages.v) says when a message
    is true of a tensor; a layer is made before there is a tensor. *)
From Verif Require Import Py SpecGrammar SpecSem SpecPattern SpecEinMix Parsing Recipe Ops Messages SpecMessages LayerMessages.

(** messages about the dimensions of a tensor *)
Definition about_tensor (m : mistake) : bool :=
  match m with TooFewDims _ _ | WrongDims _ _ | Mismatch _ _ | CannotDivide _ _ | Foreign => true | _ => false end.

(** true of every tensor with a certain number of dimensions, and not about its
    dimensions *)
Definition true_of_layer (U : unicode) (pattern : pystr) (op : operation) (sizes : list (pystr * Z)) (m : mistake) : Prop :=
  about_tensor m = false /\ exists n, forall shape, length shape = n -> true_of_call U pattern op sizes shape m.

(** [L] and [R] are the two sides of the pattern, [W] the axes of the weight *)
Definition true_of_mix (U : unicode) (pattern weight : pystr) (bias : option pystr) (sizes : list (pystr * Z)) (f : fault) : Prop :=
  let names := map fst sizes in
  match f with
  | InText m => exists l r, pattern = l ++ lit "->" ++ r /\
      (true_of_side U l m \/ true_of_side U r m \/ true_of_side U weight m \/ exists b, bias = Some b /\ true_of_side U b m)
  | _ =>
    exists L R W, reads U pattern L R /\ written U weight W /\
    match f with
    | NewOnRight axes => consists_of axes (fun s => In s (keys R) /\ ~ In s (keys L) /\ ~ In s (keys W)) (atoms R)
    | DotsInWeight => has_dots W = true
    | DotsOneSide p => p = pattern /\ has_dots L <> has_dots R
    | DotsGrouped p => p = pattern /\ grouped_dots L
    | Numbers => has_numbers L = true \/ has_numbers R = true \/ has_numbers W = true
    | Brackets w => w = weight /\ exists l, In (Group l) W
    (** the pattern of an inner layer is not one the caller wrote, but the axes are
        those of a group of the left side for which fewer lengths than needed are given *)
    | Preparing p lengths m => incl lengths sizes /\ true_of_layer U p (OpStr (lit "rearrange")) lengths m /\
        (plain L -> plain R ->
           (m = BadSizeName (lit "...") /\ In (lit "...") names /\ has_dots L = true) \/
           exists axes e g, m = CannotInfer axes /\ In g (left_groups e L) /\ 2 <= length axes /\ NoDup axes /\
             forall a, In a axes <-> exists s, a = AxName s /\ In (LName s) g /\ ~ In s names)
    | NoLength a => exists s, a = AxName s /\ In s (keys W) /\ ~ In s names
    | Unused axes => consists_of axes (fun s => In s names /\ ~ In s (keys L) /\ ~ In s (keys W)) []
    | Redundant axes => consists_of axes (fun s => In s (keys W) /\ ~ In s (keys L) /\ ~ In s (keys R)) []
    | BiasNotOutput axes => exists b B, bias = Some b /\ written U b B /\
        consists_of axes (fun s => In s (keys B) /\ ~ In s (keys R)) (atoms B)
    | BiasNoLength axes => exists b B, bias = Some b /\ written U b B /\
        consists_of axes (fun s => In s (keys B) /\ ~ In s names) []
    | BiasBeforeDots => exists b B, bias = Some b /\ written U b B /\
        exists pre a post s, atoms R = pre ++ a :: post /\ (a = ADots \/ a = AName ell_name) /\ In (AName s) pre /\ In s (keys B)
    | _ => False
    end
  end.

(** everything else that can be raised, when no axis is called U+2026 *)
Definition other_of_mix (U : unicode) (pattern weight : pystr) (sizes : list (pystr * Z)) (e : exn) : Prop :=
  (e = TypeError /\ exists s, In s (map fst sizes) /\ In s [lit "self"; lit "pattern"; lit "weight_shape"; lit "bias_shape"]) \/
  (e = ValueError /\ forall l r, pattern = l ++ lit "->" ++ r -> exists l' r', pattern = l' ++ lit "->" ++ r' /\ l' <> l) \/
  exists L R W, reads U pattern L R /\ written U weight W /\
    ((e = ValueError /\ In (Atom (ANum 1)) W) \/
     (e = ZeroDivisionError /\ exists s, In s (keys W) /\ ~ In s (keys R) /\ In (s, 0%Z) sizes) \/
     (e = KeyError /\ 26 < length (nodup str_eq_dec (written_names L ++ written_names R ++ written_names W)))).
