(** * Specification: the words of error messages

    Part of the specification.  The templates are the strings in einops' source;
    [{}] stands for an argument, as in [str.format] (the names in f-strings are left
    out).  Texts are read back with Python's rules for string literals. *)
From Verif Require Import Py SpecGrammar Parsing Recipe SpecTexts Texts Messages Complaints LayerMessages.

(** str.format *)
Fixpoint fmt (t : pystr) (args : list pystr) : pystr :=
  match t with
  | [] => []
  | c :: t' => match t' with
               | d :: t'' => if (c =? 123)%N && (d =? 125)%N then hd [] args ++ fmt t'' (tl args) else c :: fmt t' args
               | [] => [c]
               end
  end.
(** the part before the first argument *)
Fixpoint opening (t : pystr) : pystr :=
  match t with
  | [] => []
  | c :: t' => match t' with
               | d :: _ => if (c =? 123)%N && (d =? 125)%N then [] else c :: opening t'
               | [] => [c]
               end
  end.
Fixpoint starts (p t : pystr) : bool :=
  match p, t with
  | [], _ => true
  | c :: p, d :: t => (c =? d)%N && starts p t
  | _ :: _, [] => false
  end.

(** parsing.py:18, 40, 43, 53, 73, 92, 96, 105, 108; einops.py:184, 188, 305-329, 334, 366, 395-397, 406 *)
Definition of_mistake (m : mistake) : pystr :=
  match m with
  | BadNumber _ => lit "Anonymous axis should have positive length, not {}"
  | StrayDots => lit "Expression may contain dots only inside ellipsis (...)"
  | ManyDots => lit "Expression may contain dots only inside ellipsis (...); only one ellipsis for tensor "
  | Duplicate _ => lit "Indexing expression contains duplicate dimension ""{}"""
  | BadName _ _ => lit "Invalid axis identifier: {}" ++ [10%N] ++ lit "{}"
  | NestedBrackets => lit "Axis composition is one-level (brackets inside brackets not allowed)"
  | UnopenedBracket => lit "Brackets are not balanced"
  | UnknownChar _ => lit "Unknown character '{}'"
  | UnclosedBracket _ => lit "Imbalanced parentheses in expression: ""{}"""
  | DotsOnlyRight _ => lit "Ellipsis found in right side, but not left side of a pattern {}"
  | DotsInBrackets _ => lit "Ellipsis inside parenthesis in the left side is not allowed: {}"
  | NumbersInRearrange => lit "Non-unitary anonymous axes are not supported in rearrange (exception is length 1)"
  | OnOneSide _ => lit "Identifiers only on one side of expression (should be on both): {}"
  | OnlyLeft _ => lit "Unexpected identifiers on the left side of repeat: {}"
  | NeedSizes _ => lit "Specify sizes for new axes in repeat: {}"
  | OnlyRight _ _ => lit "Unexpected identifiers on the right side of reduce {}: {}"
  | UnknownReduction _ => lit "Unknown reduction {}. Expect one of ('min', 'max', 'sum', 'mean', 'prod', 'any', 'all')."
  | TooFewDims _ _ => lit "Wrong shape: expected >={} dims. Received {}-dim tensor."
  | WrongDims _ _ => lit "Wrong shape: expected {} dims. Received {}-dim tensor."
  | BadSizeName _ => lit "('Invalid name for an axis', {})"
  | UnusedSize _ => lit "Axis {} is not used in transform"
  | CannotInfer _ => lit "Could not infer sizes for {}"
  | Mismatch _ _ => lit "Shape mismatch, {} != {}"
  | CannotDivide _ _ => lit "Shape mismatch, can't divide axis of length {} in chunks of {}"
  | Foreign => lit "{}"
  end.
(** parsing.py:124-133 *)
Definition of_reason (w : reason) : pystr :=
  match w with NotIdentifier => lit "not a valid python identifier" | OuterUnderscore => lit "axis name should should not start or end with underscore" end.
(** what is put in; [axes], [name]: str of a set, repr of a str *)
Definition in_mistake (callable foreign : pystr) (axes : list axis -> pystr) (name : pystr -> pystr) (m : mistake) : list pystr :=
  let op o := match o with OpStr s => s | OpCallable => callable end in
  match m with
  | BadNumber v => [str_of_int v]
  | Duplicate x | UnclosedBracket x | DotsOnlyRight x | DotsInBrackets x | UnusedSize x => [x]
  | BadName x w => [x; of_reason w]
  | UnknownChar c => [[c]]
  | OnOneSide l | OnlyLeft l | NeedSizes l | CannotInfer l => [axes l]
  | OnlyRight o l => [op o; axes l]
  | UnknownReduction o => [op o]
  | TooFewDims a b | WrongDims a b => [str_of_nat a; str_of_nat b]
  | BadSizeName x => [name x]
  | Mismatch a b | CannotDivide a b => [str_of_int a; str_of_int b]
  | Foreign => [foreign]
  | _ => []
  end.

(** packing.py, einops.py:682-766, 776, 800, 818, 907, 912 *)
Definition of_complaint (c : complaint) : pystr :=
  match c with
  | RepeatedAxes => lit "Duplicates in axes names in {}(..., ""{}"")"
  | NoStar => lit "No *-axis in {}(..., ""{}"")"
  | InvalidAxis _ => lit "Invalid axis name {} in {}(..., ""{}"")"
  | FewAxes _ _ _ => lit "packed tensor #{} (enumeration starts with 0) has shape {}, while pattern {} assumes at least {} axes"
  | WrongRank _ => lit "unpack(..., {}) received input of wrong dim with shape {}"
  | ManyOpen => lit "unpack(..., {}) received more than one -1 in {} and can't infer dimensions"
  | NoSplit _ => lit "Error during unpack(..., ""{}""): could not split axis of size {} into requested {}"
  | InPattern m => of_mistake m
  | Composite _ => lit "Can't parse shape with composite axes: {} {}"
  | FewDims _ => lit "Can't parse shape with this number of dimensions: {} {}"
  | OtherDims _ => lit "Can't parse shape with different number of dimensions: {} {}"
  | NotOne _ => lit "Length of axis is not 1: {} {}"
  | NotNumber _ => lit "Length of anonymous axis does not match: {} {}"
  | FewArguments => lit "`einops.einsum` takes at minimum two arguments: the tensors (at least one), followed by the pattern."
  | LastNotText => lit "The last argument passed to `einops.einsum` must be a string, representing the einsum pattern."
  | NoArrow => lit "Einsum pattern must contain '->'."
  | Singleton => lit "Singleton () axes are not yet supported in einsum."
  | Composed => lit "Shape rearrangement is not yet supported in einsum."
  | Anonymous => lit "Anonymous axes are not yet supported in einsum."
  | EmptyName => lit "Encountered empty axis name in einsum."
  | ManyAxes => lit "Too many axes in einsum."
  | UnknownAxis _ => lit "Unknown axis {} on right side of einsum {}."
  end.
Definition in_complaint (opname pattern shapes : pystr) (shape : list Z -> pystr) (mistaken : mistake -> list pystr) (c : complaint) : list pystr :=
  match c with
  | RepeatedAxes | NoStar => [opname; pattern]
  | InvalidAxis x => [x; opname; pattern]
  | FewAxes i s least => [str_of_nat i; shape s; pattern; str_of_nat least]
  | WrongRank s | Composite s | FewDims s | OtherDims s | NotOne s | NotNumber s => [pattern; shape s]
  | ManyOpen => [pattern; shapes]
  | NoSplit n => [pattern; str_of_int n; shapes]
  | InPattern m => mistaken m
  | UnknownAxis x => [x; pattern]
  | _ => []
  end.

(** _einmix.py; layers/__init__.py:40, 90 *)
Definition of_layer : pystr := lit " Error while preparing {}" ++ [10%N] ++ lit " {}".
Definition of_fault (f : fault) : pystr :=
  match f with
  | InText m => of_mistake m
  | NewOnRight _ => lit "Unrecognized identifiers on the right side of EinMix {}"
  | DotsInWeight => lit "Ellipsis is not supported in weight, as its shape should be fully specified"
  | DotsOneSide _ => lit "Ellipsis in EinMix should be on both sides, {}"
  | DotsGrouped _ => lit "Ellipsis on left side can't be in parenthesis, got {}"
  | Numbers => lit "Anonymous axes (numbers) are not allowed in EinMix"
  | Brackets _ => lit "Parenthesis is not allowed in weight shape: {}"
  | Preparing _ _ _ => of_layer
  | NoLength _ => lit "Dimension {} of weight should be specified"
  | Unused _ => lit "Axes {} are not used in pattern"
  | Redundant _ => lit "Weight axes {} are redundant"
  | BiasNotOutput _ => lit "Bias axes {} not present in output"
  | BiasNoLength _ => lit "Sizes not provided for bias axes {}"
  | BiasBeforeDots => lit "all bias dimensions should go after ellipsis in the output"
  end.

(** [one], [layer]: repr of an axis and of the inner Rearrange with these lengths *)
Definition in_fault (axes : list axis -> pystr) (name : pystr -> pystr) (one : axis -> pystr) (layer : pystr -> list (pystr * Z) -> pystr) (f : fault) : list pystr :=
  match f with
  | InText m => in_mistake [] [] axes name m
  | NewOnRight l | Unused l | Redundant l | BiasNotOutput l | BiasNoLength l => [axes l]
  | DotsOneSide p | DotsGrouped p | Brackets p => [p]
  | Preparing p lengths m => [layer p lengths; fmt (of_mistake m) (in_mistake [] [] axes name m)]
  | NoLength (AxName s) => [s]
  | NoLength a => [one a]
  | _ => []
  end.
(** einops.py:536-542, array_api.py:25-31 *)
Definition of_report (is_list : bool) : pystr :=
  lit " Error while processing {}-reduction pattern ""{}""." ++ [10%N] ++ (if is_list then lit " Input is list. " else lit " Input tensor shape: {}. ") ++
  lit "Additional info: {}." ++ [10%N] ++ lit " {}".

(** ** reading a message *)
(** the templates, those first whose opening another one begins with *)
Definition mistake_templates : list pystr := map of_mistake
  [ManyDots; StrayDots; TooFewDims 0 0; WrongDims 0 0; CannotDivide 0 0; Mismatch 0 0; BadNumber 0; Duplicate []; BadName [] NotIdentifier; NestedBrackets; UnopenedBracket;
   UnknownChar 0; UnclosedBracket []; DotsOnlyRight []; DotsInBrackets []; NumbersInRearrange; OnOneSide []; OnlyLeft []; NeedSizes []; OnlyRight OpCallable [];
   UnknownReduction OpCallable; BadSizeName []; UnusedSize []; CannotInfer []].
Definition complaint_templates : list pystr := map of_complaint
  [RepeatedAxes; NoStar; InvalidAxis []; FewAxes 0 [] 0; NoSplit 0; Composite []; FewDims []; OtherDims []; NotOne []; NotNumber [];
   FewArguments; LastNotText; NoArrow; Singleton; Composed; Anonymous; EmptyName; ManyAxes; UnknownAxis []].
Definition fits (text t : pystr) : bool := if str_eqb (opening t) t then str_eqb text t else starts (opening t) text.
Definition which (templates : list pystr) (text : pystr) : option pystr := find (fits text) templates.

(** Python's string literals, on one line; what follows is returned as well *)
Definition hex_value (c : N) : N := if (c <? 58)%N then (c - 48)%N else (c - 87)%N.
Definition hex_number (l : list N) : N := fold_left (fun n c => (n * 16 + hex_value c)%N) l 0%N.
Definition put_first (c : N) (r : option (pystr * pystr)) : option (pystr * pystr) := match r with Some (s, t) => Some (c :: s, t) | None => None end.
Fixpoint literal_body (q : N) (t : pystr) : option (pystr * pystr) :=
  match t with
  | [] => None
  | c :: t =>
      if (c =? q)%N then Some ([], t)
      else if (c =? 92)%N then
        match t with
        | [] => None
        | e :: t =>
            if (e =? 116)%N then put_first 9 (literal_body q t)
            else if (e =? 110)%N then put_first 10 (literal_body q t)
            else if (e =? 114)%N then put_first 13 (literal_body q t)
            else if (e =? 39)%N || (e =? 34)%N || (e =? 92)%N then put_first e (literal_body q t)
            else if (e =? 120)%N then match t with a :: b :: t => put_first (hex_number [a; b]) (literal_body q t) | _ => None end
            else if (e =? 117)%N then match t with a :: b :: c :: d :: t => put_first (hex_number [a; b; c; d]) (literal_body q t) | _ => None end
            else if (e =? 85)%N then match t with a :: b :: c :: d :: a' :: b' :: c' :: d' :: t => put_first (hex_number [a; b; c; d; a'; b'; c'; d']) (literal_body q t) | _ => None end
            else None
        end
      else if (c =? 10)%N || (c =? 13)%N then None
      else put_first c (literal_body q t)
  end.
Definition read_literal (t : pystr) : option (pystr * pystr) :=
  match t with c :: t => if (c =? 39)%N || (c =? 34)%N then literal_body c t else None | [] => None end.
(** characters are code points *)
Definition code_points (s : pystr) : Prop := forall c, In c s -> (c < 1114112)%N.

(** the digits in front *)
Fixpoint digits_of (t : pystr) : pystr * pystr :=
  match t with
  | [] => ([], [])
  | c :: t' => if ascii_digit c then let '(d, r) := digits_of t' in (c :: d, r) else ([], t)
  end.
Definition read_number (t : pystr) : Z * pystr :=
  match t with
  | c :: t' => if (c =? 45)%N then let '(d, r) := digits_of t' in ((- digits_value d)%Z, r) else let '(d, r) := digits_of t in (digits_value d, r)
  | [] => (0%Z, [])
  end.
(** an axis in a set: a name or a number *)
Definition read_axis (t : pystr) : option ((pystr + Z) * pystr) :=
  match read_literal t with
  | Some (s, t) => Some (inl s, t)
  | None => let '(v, t) := read_number t in if starts (lit "-axis") t then Some (inr v, skipn 5 t) else None
  end.
(** an entry of a dict *)
Definition read_entry (t : pystr) : option ((pystr * Z) * pystr) :=
  match read_literal t with
  | Some (k, t) => if starts (lit ": ") t then let '(v, t) := read_number (skipn 2 t) in Some ((k, v), t) else None
  | None => None
  end.
(** entries until the brace; [n]: at most so many *)
Fixpoint read_entries {V} (read : pystr -> option (V * pystr)) (n : nat) (t : pystr) : option (list V * pystr) :=
  match n with
  | 0 => None
  | S n => match read t with
           | Some (v, t) => if starts (lit "}") t then Some ([v], skipn 1 t)
                            else if starts (lit ", ") t then match read_entries read n (skipn 2 t) with Some (l, t) => Some (v :: l, t) | None => None end
                            else None
           | None => None
           end
  end.
Definition read_braces {V} (read : pystr -> option (V * pystr)) (t : pystr) : option (list V * pystr) :=
  if starts (lit "{}") t then Some ([], skipn 2 t)
  else if starts (lit "{") t then read_entries read (length t) (skipn 1 t) else None.
(** what is shown of an axis *)
Definition shown (a : axis) : pystr + Z := match a with AxName s => inl s | AxAnon _ v => inr v end.
(** what a mistake is about *)
Definition details (m : mistake) : list pystr * list Z * list (pystr + Z) :=
  match m with
  | BadNumber v => ([], [v], [])
  | Duplicate x | UnclosedBracket x | DotsOnlyRight x | DotsInBrackets x | UnusedSize x | BadSizeName x => ([x], [], [])
  | BadName x w => ([x; of_reason w], [], [])
  | UnknownChar c => ([[c]], [], [])
  | OnOneSide l | OnlyLeft l | NeedSizes l | CannotInfer l => ([], [], map shown l)
  | OnlyRight (OpStr s) l => ([s], [], map shown l)
  | OnlyRight OpCallable l => ([], [], map shown l)
  | UnknownReduction (OpStr s) => ([s], [], [])
  | TooFewDims a b | WrongDims a b => ([], [Z.of_nat a; Z.of_nat b], [])
  | Mismatch a b | CannotDivide a b => ([], [a; b], [])
  | _ => ([], [], [])
  end.
(** names are strings, operations known ones; the str of a callable and of another library's exception are not einops' *)
Definition plain (m : mistake) : Prop :=
  let named l := forall s, In (AxName s) l -> code_points s in
  match m with
  | OnOneSide l | OnlyLeft l | NeedSizes l | CannotInfer l => named l
  | OnlyRight (OpStr s) l => In s reductions /\ named l
  | BadSizeName x => code_points x
  | OnlyRight OpCallable _ | UnknownReduction OpCallable | Foreign => False
  | _ => True
  end.
