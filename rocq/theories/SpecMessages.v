(** * Specification: what the error messages claim

    Part of the specification.  [true_of_call] says what must hold of the pattern,
    the operation, the lengths given by name and the shape of the tensor for a
    message to be true. *)
From Verif Require Import Py Tensor SpecGrammar SpecSem SpecPattern Parsing Recipe Ops Messages.

(** messages show an ellipsis as U+2026 *)
Definition shown (s s' : pystr) : Prop :=
  (~ In c_dot s /\ s' = s) \/
  exists pre post, s = pre ++ lit "..." ++ post /\ ~ In c_dot (pre ++ post) /\ s' = pre ++ [c_ell] ++ post.

(** a legal name of an axis that is given as a keyword *)
Definition proper_name (U : unicode) (x : pystr) : Prop :=
  isidentifier U x = true /\ hd 0%N x <> c_under /\ last x 0%N <> c_under.

(** messages about one side [s] of the pattern *)
Definition true_of_side (U : unicode) (s : pystr) (m : mistake) : Prop :=
  match m with
  | StrayDots => In c_dot s /\ forall pre post, s <> pre ++ lit "..." ++ post
  | ManyDots => exists pre post, s = pre ++ lit "..." ++ post /\ In c_dot (pre ++ post)
  | _ =>
    exists s' ts, shown s s' /\ spells s' ts /\
    match m with
    | Duplicate x => isdecimal U x = false /\ exists ts1 ts2 ts3, ts = ts1 ++ TWord x :: ts2 ++ TWord x :: ts3
    | BadName x NotIdentifier => In (TWord x) ts /\ isdecimal U x = false /\ isidentifier U x = false
    | BadName x OuterUnderscore => In (TWord x) ts /\ isdecimal U x = false /\ (hd 0%N x = c_under \/ last x 0%N = c_under)
    | BadNumber v => (v <= 0)%Z /\ exists x, In (TWord x) ts /\ isdecimal U x = true /\ int_of_str U x = v
    | NestedBrackets => exists ts1 ws ts2, ts = ts1 ++ TOpen :: map TWord ws ++ TOpen :: ts2
    | UnopenedBracket => exists ts1 ts2, ts = ts1 ++ TClose :: ts2 /\ forall a b, ts1 = a ++ TOpen :: b -> In TClose b
    | UnknownChar c => In c s' /\ ~ separator c /\ u_alnum U c = false /\ c <> c_under /\ c <> c_ell
    | UnclosedBracket w => w = s' /\ exists ts1 ws, ts = ts1 ++ TOpen :: map TWord ws
    | _ => False
    end
  end.

Definition about_side (m : mistake) : bool :=
  match m with
  | BadNumber _ | StrayDots | ManyDots | Duplicate _ | BadName _ _ | NestedBrackets | UnopenedBracket
  | UnknownChar _ | UnclosedBracket _ => true
  | _ => false
  end.

(** the length of an axis is given, by the caller or as a number *)
Definition is_given (names : list pystr) (a : label) : Prop :=
  match a with LName s => In s names | LNum _ _ => True | LDots _ => False end.
(** [val] are the given lengths *)
Definition given_lengths (sizes : list (pystr * Z)) (val : label -> Z) : Prop :=
  (forall s z, In (s, z) sizes -> val (LName s) = z) /\ (forall k n, val (LNum k n) = n).
Definition product_of (val : label -> Z) (g : list label) : Z := fold_right Z.mul 1%Z (map val g).

(** exactly these names, and the numbers of [l] *)
Definition consists_of (axes : list axis) (P : pystr -> Prop) (l : list atom) : Prop :=
  axes <> [] /\ NoDup axes /\ (forall s, In (AxName s) axes <-> P s) /\
  (forall n, (exists k, In (AxAnon k n) axes) <-> In (ANum n) l /\ n <> 1%Z).

Definition reducing (op : operation) : Prop :=
  match op with OpStr s => In s reductions | OpCallable => True end.

Definition true_of_call (U : unicode) (pattern : pystr) (op : operation) (sizes : list (pystr * Z)) (shape : list nat)
    (m : mistake) : Prop :=
  let names := map fst sizes in
  if about_side m then
    exists l r, pattern = l ++ lit "->" ++ r /\ (true_of_side U l m \/ ((exists L, written U l L) /\ true_of_side U r m))
  else
    exists L R, reads U pattern L R /\
    match m with
    | DotsOnlyRight p => p = pattern /\ has_dots L = false /\ has_dots R = true
    | DotsInBrackets p => p = pattern /\ grouped_dots L
    | NumbersInRearrange => op = OpStr (lit "rearrange") /\ (has_numbers L = true \/ has_numbers R = true)
    | OnOneSide axes => op = OpStr (lit "rearrange") /\
        consists_of axes (fun s => (In s (keys L) /\ ~ In s (keys R)) \/ (In s (keys R) /\ ~ In s (keys L))) []
    | OnlyLeft axes => op = OpStr (lit "repeat") /\ consists_of axes (fun s => In s (keys L) /\ ~ In s (keys R)) (atoms L)
    | NeedSizes axes => op = OpStr (lit "repeat") /\
        consists_of axes (fun s => In s (keys R) /\ ~ In s (keys L) /\ ~ In s names) []
    | OnlyRight op' axes => op' = op /\ reducing op /\ consists_of axes (fun s => In s (keys R) /\ ~ In s (keys L)) (atoms R)
    | UnknownReduction op' => op' = op /\ exists s, op = OpStr s /\ ~ In s (lit "rearrange" :: lit "repeat" :: reductions)
    | TooFewDims e n => n = length shape /\ has_dots L = true /\ length L = S e /\ n < e
    | WrongDims e n => n = length shape /\ has_dots L = false /\ length L = e /\ n <> e
    | BadSizeName x => In x names /\ ~ proper_name U x
    | UnusedSize x => In x names /\ ~ In x (keys L) /\ ~ In x (keys R)
    | CannotInfer axes => exists e g, rank_fits L (length shape) e /\ In g (left_groups e L) /\ 2 <= length axes /\ NoDup axes /\
        forall a, In a axes <-> exists s, a = AxName s /\ In (LName s) g /\ ~ In s names
    | Mismatch n k => exists e i g d val, rank_fits L (length shape) e /\
        nth_error (left_groups e L) i = Some g /\ nth_error shape i = Some d /\ n = Z.of_nat d /\
        given_lengths sizes val /\ (forall a, In a g -> is_given names a) /\ k = product_of val g /\ n <> k
    | CannotDivide n k => exists e i g d val a g1 g2, rank_fits L (length shape) e /\
        nth_error (left_groups e L) i = Some g /\ nth_error shape i = Some d /\ n = Z.of_nat d /\
        g = g1 ++ a :: g2 /\ ~ is_given names a /\ (forall b, In b (g1 ++ g2) -> is_given names b) /\
        given_lengths sizes val /\ k = product_of val (g1 ++ g2) /\ ~ (k | n)%Z
    | _ => False
    end.

(** the shape of the tensor; tensors in a list are stacked along a new first axis *)
Definition shape_seen {A} (x : input (tensor A)) (s : list nat) : Prop :=
  match x with
  | One t => s = shp t
  | Many ts => exists t ts', ts = t :: ts' /\ s = length ts :: shp t
  end.
(** a library, and a callable, that does not raise einops' own exception *)
Definition own_errors {A} (red : pystr -> list A -> result A) (f : reduction (tensor A)) : Prop :=
  (forall s vs, red s vs <> Err EinopsError) /\
  match f with RCall g => forall t axes, g t axes <> Err EinopsError | RStr _ => True end.
