(** * Model of the error messages of rearrange, reduce and repeat

    The functions of Parsing.v, Recipe.v and Ops.v once more, now keeping which
    message an EinopsError carries (parsing.py:12-18, 39-110, 127-143;
    einops.py:155-224, 289-442), and the handlers that wrap it (einops.py:535-542,
    array_api.py:24-31).  MessageFacts.v shows that without the messages these are
    the functions of the other files. *)
From Verif Require Import Py Parsing Recipe Ops Texts.

(** check_axis_name_return_reason (parsing.py:127-143) *)
Inductive reason := NotIdentifier | OuterUnderscore.

(** the calls of EinopsError(...), in order of appearance *)
Inductive mistake :=
| BadNumber (v : Z)                     (* parsing.py:18 *)
| StrayDots                             (* parsing.py:40 *)
| ManyDots                              (* parsing.py:42-44 *)
| Duplicate (x : pystr)                 (* parsing.py:53 *)
| BadName (x : pystr) (w : reason)      (* parsing.py:73 *)
| NestedBrackets                        (* parsing.py:92 *)
| UnopenedBracket                       (* parsing.py:96 *)
| UnknownChar (c : N)                   (* parsing.py:105 *)
| UnclosedBracket (s : pystr)           (* parsing.py:108 *)
| DotsOnlyRight (pattern : pystr)       (* einops.py:305 *)
| DotsInBrackets (pattern : pystr)      (* einops.py:307 *)
| NumbersInRearrange                    (* einops.py:310 *)
| OnOneSide (axes : list axis)          (* einops.py:313 *)
| OnlyLeft (axes : list axis)           (* einops.py:317 *)
| NeedSizes (axes : list axis)          (* einops.py:323 *)
| OnlyRight (op : operation) (axes : list axis)   (* einops.py:327 *)
| UnknownReduction (op : operation)     (* einops.py:329 *)
| TooFewDims (expected received : nat)  (* einops.py:334 *)
| WrongDims (expected received : nat)   (* einops.py:366 *)
| BadSizeName (x : pystr)               (* einops.py:395 *)
| UnusedSize (x : pystr)                (* einops.py:397 *)
| CannotInfer (axes : list axis)        (* einops.py:405 *)
| Mismatch (length_ product_ : Z)       (* einops.py:184 *)
| CannotDivide (length_ product_ : Z)   (* einops.py:188 *)
| Foreign.                              (* raised by a callable reduction or the library *)

(** an exception is an EinopsError with a message, or another one *)
Inductive outcome (A : Type) := Fine (a : A) | Wrong (m : mistake) | Fails (e : exn).
Arguments Fine {A} a.
Arguments Wrong {A} m.
Arguments Fails {A} e.
Definition and_then {A B} (m : outcome A) (f : A -> outcome B) : outcome B :=
  match m with Fine a => f a | Wrong w => Wrong w | Fails e => Fails e end.
Notation "'let!' x ':=' m 'in' k" := (and_then m (fun x => k))
  (at level 200, x pattern, right associativity).
Definition wrong_if (c : bool) (m : mistake) : outcome unit := if c then Wrong m else Fine tt.
(** parts of the code without messages *)
Definition lift {A} (r : result A) : outcome A :=
  match r with Ok a => Fine a | Err EinopsError => Wrong Foreign | Err e => Fails e end.
Fixpoint mapO {A B} (f : A -> outcome B) (l : list A) : outcome (list B) :=
  match l with
  | [] => Fine []
  | x :: l' => let! y := f x in let! ys := mapO f l' in Fine (y :: ys)
  end.
Fixpoint foldO {A B} (f : A -> B -> outcome A) (l : list B) (acc : A) : outcome A :=
  match l with
  | [] => Fine acc
  | x :: l' => let! acc' := f acc x in foldO f l' acc'
  end.

(** ** parsing.py *)

(** 127-143 *)
Definition axis_name_reason (U : unicode) (allow_underscore : bool) (name : pystr) : option reason :=
  if negb (isidentifier U name) then Some NotIdentifier
  else if (hd 0%N name =? c_under)%N || (last name 0%N =? c_under)%N
       then if str_eqb name [c_under] && allow_underscore then None else Some OuterUnderscore
       else None.

(** 50-82 *)
Definition add_axis_name_msg (U : unicode) (allow_underscore allow_duplicates : bool)
    (x : pystr) (st : pstate) : outcome pstate :=
  if axis_mem (AxName x) (s_ids st)
     && negb (allow_underscore && str_eqb x [c_under]) && negb allow_duplicates
  then Wrong (Duplicate x)                                                                 (* 51-53 *)
  else if str_eqb x ellipsis_str then lift (add_axis_name U allow_underscore allow_duplicates x st)  (* 54-61 *)
  else
    let is_number := isdecimal U x in
    if is_number && (int_of_str U x =? 1)%Z
    then lift (add_axis_name U allow_underscore allow_duplicates x st)                     (* 63-70 *)
    else
      let! _ := match axis_name_reason U allow_underscore x with                           (* 71-73 *)
                | Some w => wrong_if (negb is_number) (BadName x w)
                | None => Fine tt
                end in
      let! _ := wrong_if (is_number && (int_of_str U x <=? 1)%Z) (BadNumber (int_of_str U x)) in (* 74-75, 12-18 *)
      lift (add_axis_name U allow_underscore allow_duplicates x st).                       (* 76-82 *)

Definition flush_msg (U : unicode) (au ad : bool) (cur : option pystr) (st : pstate) : outcome pstate :=
  match cur with Some x => add_axis_name_msg U au ad x st | None => Fine st end.

(** 85-110; [whole] is the expression after line 45 *)
Fixpoint parse_loop_msg (U : unicode) (au ad : bool) (whole cs : pystr) (cur : option pystr) (st : pstate)
    : outcome pstate :=
  match cs with
  | [] =>
      match s_bracket st with
      | Some _ => Wrong (UnclosedBracket whole)                                            (* 107-108 *)
      | None => flush_msg U au ad cur st                                                   (* 109-110 *)
      end
  | c :: cs' =>
      if (c =? c_open)%N || (c =? c_close)%N || (c =? c_space)%N then
        let! st1 := flush_msg U au ad cur st in                                            (* 87-89 *)
        if (c =? c_open)%N then                                                            (* 90-93 *)
          match s_bracket st1 with
          | Some _ => Wrong NestedBrackets
          | None => parse_loop_msg U au ad whole cs' None
                      {| s_ids := s_ids st1; s_par := s_par st1; s_anon := s_anon st1;
                         s_comp := s_comp st1; s_bracket := Some []; s_next := s_next st1 |}
          end
        else if (c =? c_close)%N then                                                      (* 94-98 *)
          match s_bracket st1 with
          | None => Wrong UnopenedBracket
          | Some g => parse_loop_msg U au ad whole cs' None
                        {| s_ids := s_ids st1; s_par := s_par st1; s_anon := s_anon st1;
                           s_comp := s_comp st1 ++ [CGrp g]; s_bracket := None; s_next := s_next st1 |}
          end
        else parse_loop_msg U au ad whole cs' None st1
      else if u_alnum U c || (c =? c_under)%N || (c =? c_ell)%N then                       (* 99-103 *)
        parse_loop_msg U au ad whole cs' (Some (match cur with None => [c] | Some w => w ++ [c] end)) st
      else Wrong (UnknownChar c)                                                           (* 104-105 *)
  end.

(** 30-110 *)
Definition parse_expression_msg (U : unicode) (allow_underscore allow_duplicates : bool)
    (next : nat) (expression : pystr) : outcome (parsed * nat) :=
  let has_dots := str_contains dot expression in                                           (* 38 *)
  let! _ := wrong_if (has_dots && negb (str_contains dots expression)) StrayDots in        (* 39-40 *)
  let! _ := wrong_if (has_dots && (negb (str_count dots expression =? 1)
                                   || negb (str_count dot expression =? 3))) ManyDots in   (* 41-44 *)
  let expression := if has_dots then str_replace dots ellipsis_str expression else expression in (* 45-46 *)
  let! st := parse_loop_msg U allow_underscore allow_duplicates expression expression None (init_pstate next) in
  Fine ({| p_has_ellipsis := has_dots; p_ell_par := s_par st; p_identifiers := s_ids st;
           p_anon := s_anon st; p_composition := s_comp st |}, s_next st).

(** ** einops.py *)

(** 308-329; the order in which a set is printed is again arbitrary *)
Definition check_identifiers_msg (o : orders) (op : operation) (lft rght : parsed) (axes_names : list pystr) : outcome unit :=
  let lids := p_identifiers lft in
  let rids := p_identifiers rght in
  let reducing :=
    let difference := set_diff rids lids in                                      (* 324-327 *)
    wrong_if (negb (length difference =? 0)) (OnlyRight op (o 3 difference)) in
  match op with
  | OpStr s =>
      if str_eqb s s_rearrange then                                              (* 308-313 *)
        let! _ := wrong_if (p_anon lft || p_anon rght) NumbersInRearrange in
        let difference := set_diff lids rids ++ set_diff rids lids in
        wrong_if (negb (length difference =? 0)) (OnOneSide (o 3 difference))
      else if str_eqb s s_repeat then                                            (* 314-323 *)
        let difference := set_diff lids rids in
        let! _ := wrong_if (negb (length difference =? 0)) (OnlyLeft (o 3 difference)) in
        let axes_without_size := set_diff (filter (fun a => negb (is_anon a)) rids) (lids ++ map AxName axes_names) in
        wrong_if (negb (length axes_without_size =? 0)) (NeedSizes (o 3 axes_without_size))
      else if str_mem s reductions then reducing
      else Wrong (UnknownReduction op)                                           (* 328-329 *)
  | OpCallable => reducing
  end.

(** 331-368: the two checks; the rest does not raise EinopsError *)
Definition resolve_ellipsis_msg (lft rght : parsed) (ndim : nat)
    : outcome (list (list axis) * list (list axis) * list axis * list axis) :=
  let n_other_dims := length (p_composition lft) - 1 in
  let! _ := if p_has_ellipsis lft
            then wrong_if (ndim <? n_other_dims) (TooFewDims n_other_dims ndim)                 (* 333-334 *)
            else wrong_if (negb (ndim =? length (p_composition lft)))
                          (WrongDims (length (p_composition lft)) ndim) in                      (* 365-366 *)
  lift (resolve_ellipsis lft rght ndim).

(** 393-398 *)
Definition mark_expected_msg (U : unicode) (axes_names : list pystr) (d : list (axis * Z))
    : outcome (list (axis * Z)) :=
  foldO (fun d name =>
           let! _ := wrong_if (negb (check_axis_name U false name)) (BadSizeName name) in
           let! _ := wrong_if (negb (dict_has axis_eqb (AxName name) d)) (UnusedSize name) in
           Fine (dict_set axis_eqb (AxName name) expected_axis_length d)) axes_names d.
(** 400-410 *)
Definition known_unknown_msg (o : orders) (d : list (axis * Z)) (pos : list (axis * nat)) (g : list axis)
    : outcome (list nat * list nat) :=
  let! vs := lift (mapM (fun a => dict_getr a d) g) in
  let tagged := combine g vs in
  let known := set_of (map fst (filter (fun '(_, v) => negb (v =? unknown_axis_length)%Z) tagged)) in
  let unknown := set_of (map fst (filter (fun '(_, v) => (v =? unknown_axis_length)%Z) tagged)) in
  let! _ := wrong_if (1 <? length unknown) (CannotInfer (o 3 unknown)) in
  let! _ := lift (raise_if (negb (length unknown + length known =? length g)) AssertionError) in
  let! k := lift (mapM (fun a => dict_getr a pos) (o 1 known)) in
  let! u := lift (mapM (fun a => dict_getr a pos) (o 2 unknown)) in
  Fine (k, u).

(** 289-442 *)
Definition prepare_recipe_msg (U : unicode) (o : orders) (pattern : pystr) (op : operation)
    (axes_names : list pystr) (ndim : nat) : outcome recipe :=
  match str_split s_arrow pattern with                                            (* 299 *)
  | [left_str; rght_str] =>
    let! (lft, next) := parse_expression_msg U false false 0 left_str in         (* 300 *)
    let! (rght, _) := parse_expression_msg U false false next rght_str in         (* 301 *)
    let! _ := wrong_if (negb (p_has_ellipsis lft) && p_has_ellipsis rght) (DotsOnlyRight pattern) in  (* 304-305 *)
    let! _ := wrong_if (p_has_ellipsis lft
                        && match p_ell_par lft with Some b => b | None => false end) (DotsInBrackets pattern) in (* 306-307 *)
    let! _ := check_identifiers_msg o op lft rght axes_names in
    let! (lcomp, rcomp, lids, rids) := resolve_ellipsis_msg lft rght ndim in
    let d1 := known_lengths_left lcomp in
    let d2 := known_lengths_add (o 0 rids) d1 in
    let pos := name2position d2 in
    let! d3 := mark_expected_msg U axes_names d2 in
    let! input := mapO (known_unknown_msg o d3 pos) lcomp in
    let! output := lift (mapM (mapM (fun a => dict_getr a pos)) rcomp) in         (* 417-419 *)
    let ordered_left := concat lcomp in                                           (* 421 *)
    let ordered_rght := concat rcomp in                                           (* 422 *)
    let reduced := filter (fun a => negb (axis_mem a rids)) ordered_left in       (* 423 *)
    let order_after := filter (fun a => axis_mem a lids) ordered_rght ++ reduced in (* 424 *)
    let! perm := lift (mapM (fun a => axis_index a ordered_left) order_after) in  (* 425 *)
    let! added := lift (mapM (fun '(i, a) => let* p := dict_getr a pos in Ok (i, p))
                    (filter (fun '(_, a) => negb (axis_mem a lids)) (enumerate ordered_rght))) in (* 426-430 *)
    let! n2e := lift (mapM (fun s => let* p := dict_getr (AxName s) pos in Ok (s, p)) axes_names) in  (* 436 *)
    Fine {| r_elementary := map snd d3;
            r_name2elem := n2e;
            r_input := input;
            r_perm := perm;
            r_first_reduced := length order_after - length reduced;               (* 432 *)
            r_added := added;
            r_output := output |}
  | _ => Fails ValueError
  end.

Section Reconstruct.
  Context {D : Type} (O : dim_ops D).

  (** 171-195 *)
  Definition infer_step_msg (shape : list D) (st : list D * bool) (x : nat * (list nat * list nat))
      : outcome (list D * bool) :=
    let '(axes_lengths, need_init) := st in
    let '(input_axis, (known, unknown)) := x in
    let! length_ := lift (list_get shape input_axis) in                           (* 172 *)
    match known, unknown with
    | [], [u] =>                                                                  (* 173-176 *)
        let! al := lift (list_upd axes_lengths u length_) in Fine (al, need_init)
    | _, _ =>
        let! ks := lift (mapM (list_get axes_lengths) known) in
        let known_product := fold_left (d_mul O) ks (d_of_Z O 1) in               (* 178-180 *)
        let! al :=
          match unknown with
          | [] =>                                                                 (* 182-184 *)
              match both_ints O length_ known_product with
              | Some (l, k) => if (l =? k)%Z then Fine axes_lengths else Wrong (Mismatch l k)
              | None => Fine axes_lengths
              end
          | u :: _ =>                                                             (* 185-192 *)
              let! _ := match both_ints O length_ known_product with
                        | Some (l, k) => if (k =? 0)%Z then Fails ZeroDivisionError
                                         else wrong_if (negb (l mod k =? 0)%Z) (CannotDivide l k)
                        | None => Fine tt
                        end in
              let! q := lift (d_floordiv O length_ known_product) in
              lift (list_upd axes_lengths u q)
          end in
        Fine (al, if length known + length unknown =? 1 then need_init else true)   (* 194-195 *)
    end.

  (** 155-224 *)
  Definition reconstruct_msg (r : recipe) (shape : list D) (axes_dims : list (pystr * D)) : outcome (cooked D) :=
    let axes_lengths := map (d_of_Z O) (r_elementary r) in                        (* 167 *)
    let! axes_lengths :=                                                          (* 168-169 *)
      lift (foldM (fun al '(name, dim) =>
               let* p := of_option KeyError (dict_get str_eqb name (r_name2elem r)) in
               list_upd al p dim) axes_dims axes_lengths) in
    let! _ := foldO (infer_step_msg shape) (enumerate (r_input r)) (axes_lengths, false) in
    lift (reconstruct O r shape axes_dims).                                       (* the rest: no message *)
End Reconstruct.

(** ** The functions users call *)

(** what a call does: UnboundLocalError is listed separately *)
Inductive answer (T : Type) := Returns (t : T) | Reports (text : pystr) | Raises (e : exn) | UnboundLocal.
Arguments Returns {T} t.
Arguments Reports {T} text.
Arguments Raises {T} e.
Arguments UnboundLocal {T}.

(** *** texts

    [printable]: see Texts.v; [callable]: str() of a callable reduction;
    [foreign]: the message of an EinopsError from outside *)
Section Text.
  Context (printable : N -> bool) (callable foreign : pystr).

  Fixpoint join (sep : pystr) (l : list pystr) : pystr :=
    match l with [] => [] | [x] => x | x :: l' => x ++ sep ++ join sep l' end.
  (** repr of a str; parsing.py:20-21 [AnonymousAxis.__repr__] *)
  Definition axis_repr (a : axis) : pystr :=
    match a with AxName s => str_repr printable s | AxAnon _ v => str_of_int v ++ lit "-axis" end.
  (** str of a set that is not empty *)
  Definition set_text (l : list axis) : pystr := lit "{" ++ join (lit ", ") (map axis_repr l) ++ lit "}".
  Definition op_text (op : operation) : pystr := match op with OpStr s => s | OpCallable => callable end.
  Definition newline : pystr := [10%N].
  Definition reason_text (w : reason) : pystr :=
    match w with
    | NotIdentifier => lit "not a valid python identifier"
    | OuterUnderscore => lit "axis name should should not start or end with underscore"
    end.
  Definition quoted (s : pystr) : pystr := [c_quotes] ++ s ++ [c_quotes].
  (** str(e); an exception with two arguments prints as a tuple (einops.py:395) *)
  Definition mistake_text (m : mistake) : pystr :=
    match m with
    | BadNumber v => lit "Anonymous axis should have positive length, not " ++ str_of_int v
    | StrayDots => lit "Expression may contain dots only inside ellipsis (...)"
    | ManyDots => lit "Expression may contain dots only inside ellipsis (...); only one ellipsis for tensor "
    | Duplicate x => lit "Indexing expression contains duplicate dimension " ++ quoted x
    | BadName x w => lit "Invalid axis identifier: " ++ x ++ newline ++ reason_text w
    | NestedBrackets => lit "Axis composition is one-level (brackets inside brackets not allowed)"
    | UnopenedBracket => lit "Brackets are not balanced"
    | UnknownChar c => lit "Unknown character '" ++ [c] ++ lit "'"
    | UnclosedBracket s => lit "Imbalanced parentheses in expression: " ++ quoted s
    | DotsOnlyRight p => lit "Ellipsis found in right side, but not left side of a pattern " ++ p
    | DotsInBrackets p => lit "Ellipsis inside parenthesis in the left side is not allowed: " ++ p
    | NumbersInRearrange => lit "Non-unitary anonymous axes are not supported in rearrange (exception is length 1)"
    | OnOneSide l => lit "Identifiers only on one side of expression (should be on both): " ++ set_text l
    | OnlyLeft l => lit "Unexpected identifiers on the left side of repeat: " ++ set_text l
    | NeedSizes l => lit "Specify sizes for new axes in repeat: " ++ set_text l
    | OnlyRight op l => lit "Unexpected identifiers on the right side of reduce " ++ op_text op ++ lit ": " ++ set_text l
    | UnknownReduction op =>
        lit "Unknown reduction " ++ op_text op ++ lit ". Expect one of (" ++
        join (lit ", ") (map (str_repr printable) reductions) ++ lit ")."
    | TooFewDims e r => lit "Wrong shape: expected >=" ++ str_of_nat e ++ lit " dims. Received " ++ str_of_nat r ++ lit "-dim tensor."
    | WrongDims e r => lit "Wrong shape: expected " ++ str_of_nat e ++ lit " dims. Received " ++ str_of_nat r ++ lit "-dim tensor."
    | BadSizeName x => lit "('Invalid name for an axis', " ++ str_repr printable x ++ lit ")"
    | UnusedSize x => lit "Axis " ++ x ++ lit " is not used in transform"
    | CannotInfer l => lit "Could not infer sizes for " ++ set_text l
    | Mismatch l k => lit "Shape mismatch, " ++ str_of_int l ++ lit " != " ++ str_of_int k
    | CannotDivide l k =>
        lit "Shape mismatch, can't divide axis of length " ++ str_of_int l ++ lit " in chunks of " ++ str_of_int k
    | Foreign => foreign
    end.

  (** einops.py:536-542, array_api.py:25-31.  [where_]: "Input tensor shape: ..."
      or "Input is list"; [sizes_text]: str(axes_lengths) *)
  Definition report (op : operation) (pattern where_ sizes_text : pystr) (m : mistake) : pystr :=
    lit " Error while processing " ++ op_text op ++ lit "-reduction pattern " ++ quoted pattern ++ lit "." ++
    newline ++ where_ ++
    lit "Additional info: " ++ sizes_text ++ lit "." ++
    newline ++ lit " " ++ mistake_text m.
  Definition shape_line (shape_text : pystr) : pystr := lit " Input tensor shape: " ++ shape_text ++ lit ". ".
  Definition list_line : pystr := lit " Input is list. ".
  (** str(axes_lengths) *)
  Definition dict_text {D} (dim_text : D -> pystr) (sizes : list (pystr * D)) : pystr :=
    lit "{" ++ join (lit ", ") (map (fun '(k, v) => str_repr printable k ++ lit ": " ++ dim_text v) sizes) ++ lit "}".
End Text.

Section Calls.
  Context {T D : Type} (U : unicode) (o : orders) (O : dim_ops D) (B : backend T D).
  Context (printable : N -> bool) (callable foreign : pystr) (dim_text : D -> pystr) (shape_text : list D -> pystr).
  (** what get_backend does (Registry.v) *)
  Context (get_backend : result unit).

  (** einops.py:230-252 *)
  Definition apply_recipe_msg (r : recipe) (tensor : T) (red : reduction T) (sizes : list (pystr * D)) : outcome T :=
    let! k := reconstruct_msg O r (b_shape B tensor) sizes in
    lift (apply_cooked B k tensor red).

  (** the local variables the handler looks at: [tensor], assigned again when a
      list is stacked, and [shape], which may not have a value yet *)
  Record locals := { l_tensor : input T; l_shape : option (list D) }.

  (** einops.py:520-534: the body of [try], with the variables at the time it ends *)
  Definition reduce_body (x : input T) (pattern : pystr) (red : reduction T) (sizes : list (pystr * D))
      : locals * outcome T :=
    let before := {| l_tensor := x; l_shape := None |} in
    match x with
    | Many [] => (before, Fails TypeError)                                        (* 522-523 *)
    | _ =>
        match (let* _ := get_backend in stack_input B x) with                     (* 524-527 *)
        | Err e => (before, lift (Err e))
        | Ok tensor =>
            let shape := b_shape B tensor in                                      (* 530 *)
            ({| l_tensor := One tensor; l_shape := Some shape |},
             let! r := prepare_recipe_msg U o pattern (op_of red) (map fst sizes) (length shape) in
             apply_recipe_msg r tensor red sizes)                                 (* 531-534 *)
        end
    end.

  (** einops.py:460-542 [reduce] *)
  Definition reduce_answer (x : input T) (pattern : pystr) (red : reduction T) (sizes : list (pystr * D)) : answer T :=
    match check_kwargs reserved_kwargs sizes with
    | Err e => Raises e
    | Ok _ =>
        let '(vars, res) := reduce_body x pattern red sizes in
        match res with
        | Fine t => Returns t
        | Fails e => Raises e
        | Wrong m =>                                                              (* 535-542 *)
            let text := report printable callable foreign (op_of red) pattern in
            match l_tensor vars, l_shape vars with
            | One _, Some shape => Reports (text (shape_line (shape_text shape)) (dict_text printable dim_text sizes) m)
            | One _, None => UnboundLocal
            | Many _, _ => Reports (text list_line (dict_text printable dim_text sizes) m)
            end
        end
    end.
End Calls.

Section ArrayAPI.
  Context {T : Type} (U : unicode) (o : orders) (X : array_ns T).
  Context (printable : N -> bool) (callable foreign : pystr) (shape_text : list Z -> pystr).

  (** array_api.py:6-31 [reduce]: stacking is outside of [try] *)
  Definition xp_reduce_answer (x : input T) (pattern : pystr) (red : reduction T) (sizes : list (pystr * Z)) : answer T :=
    match (let* _ := check_kwargs reserved_kwargs sizes in stack_input_array_api X x) with
    | Err e => Raises e
    | Ok tensor =>
        let res :=
          let! r := prepare_recipe_msg U o pattern (op_of red) (map fst sizes) (length (xp_shape X tensor)) in
          let! k := reconstruct_msg int_ops r (xp_shape X tensor) sizes in
          lift (apply_cooked_array_api X k tensor red) in
        match res with
        | Fine t => Returns t
        | Fails e => Raises e
        | Wrong m => Reports (report printable callable foreign (op_of red) pattern
                                (shape_line (shape_text (xp_shape X tensor))) (dict_text printable str_of_int sizes) m)
        end
    end.
End ArrayAPI.
