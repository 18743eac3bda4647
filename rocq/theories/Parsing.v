(** * Model of einops/parsing.py *)
From Verif Require Import Py.
#[local] Open Scope list_scope.

(** An axis as it appears in [identifiers]/[composition]: a Python [str], or an
    [AnonymousAxis] object (parsing.py:9-22).  AnonymousAxis has no [__eq__], so
    two objects are equal only if identical: [id] is the object identity, handed
    out by an allocation counter. *)
Inductive axis := AxName (s : pystr) | AxAnon (id : nat) (v : Z).

Definition axis_eq_dec : forall a b : axis, {a = b} + {a <> b}.
Proof. decide equality; [apply str_eq_dec | apply Z.eq_dec | apply Nat.eq_dec]. Defined.
Definition axis_eqb (a b : axis) : bool := if axis_eq_dec a b then true else false.
Definition axis_mem (x : axis) (l : list axis) : bool := existsb (axis_eqb x) l.

(** [_ellipsis] (parsing.py:6) is an ordinary one-character string. *)
Definition ellipsis_str : pystr := [c_ell].
Definition ax_ellipsis : axis := AxName ellipsis_str.

(** An element of [composition] (parsing.py:37): the string [_ellipsis] or a list. *)
Inductive comp := CEll | CGrp (l : list axis).

(** Iterating over an element of [composition]; iterating over the one-character
    string [_ellipsis] yields that string itself (parsing.py:6 comment). *)
Definition comp_axes (c : comp) : list axis :=
  match c with CEll => [ax_ellipsis] | CGrp l => l end.

(** [set.add] *)
Definition set_add (x : axis) (l : list axis) : list axis := if axis_mem x l then l else l ++ [x].
(** [set(l)], in order of first occurrence; the order in which Python iterates is
    [orders] applied to this. *)
Definition set_of (l : list axis) : list axis := fold_left (fun acc x => set_add x acc) l [].
(** [set.difference] *)
Definition set_diff (a b : list axis) : list axis := filter (fun x => negb (axis_mem x b)) a.

(** Iteration order of a Python set of axes: depends on hash seeds and object
    addresses, so the model takes it as a parameter (an arbitrary rearrangement,
    which may differ at every place in the code that iterates over a set). *)
Definition orders := nat -> list axis -> list axis.
(** what is known about iteration: every element comes exactly once *)
Definition orders_ok (o : orders) : Prop := forall k l, Permutation (o k l) l.

(** parsing.py:127-143 [check_axis_name_return_reason] (reason and warnings dropped) *)
Definition check_axis_name (U : unicode) (allow_underscore : bool) (name : pystr) : bool :=
  if negb (isidentifier U name) then false
  else if (hd 0%N name =? c_under)%N || (last name 0%N =? c_under)%N
       then str_eqb name [c_under] && allow_underscore
       else true.

(** ParsedExpression's fields (parsing.py:31-37) *)
Record parsed := {
  p_has_ellipsis : bool;
  p_ell_par : option bool;          (* has_ellipsis_parenthesized *)
  p_identifiers : list axis;        (* a set, in insertion order *)
  p_anon : bool;                    (* has_non_unitary_anonymous_axes *)
  p_composition : list comp
}.

(** local state of the parsing loop (parsing.py:31-48, 84), plus the allocation
    counter for AnonymousAxis objects *)
Record pstate := {
  s_ids : list axis;
  s_par : option bool;
  s_anon : bool;
  s_comp : list comp;
  s_bracket : option (list axis);   (* bracket_group *)
  s_next : nat
}.

(** parsing.py:50-82 [add_axis_name] *)
Definition add_axis_name (U : unicode) (allow_underscore allow_duplicates : bool)
    (x : pystr) (st : pstate) : result pstate :=
  (* 51-53 *)
  if axis_mem (AxName x) (s_ids st)
     && negb (allow_underscore && str_eqb x [c_under]) && negb allow_duplicates
  then Err EinopsError
  else if str_eqb x ellipsis_str then
    (* 54-61 *)
    match s_bracket st with
    | None => Ok {| s_ids := set_add ax_ellipsis (s_ids st); s_par := Some false; s_anon := s_anon st;
                    s_comp := s_comp st ++ [CEll]; s_bracket := None; s_next := s_next st |}
    | Some g => Ok {| s_ids := set_add ax_ellipsis (s_ids st); s_par := Some true; s_anon := s_anon st;
                      s_comp := s_comp st; s_bracket := Some (g ++ [ax_ellipsis]); s_next := s_next st |}
    end
  else
    let is_number := isdecimal U x in
    if is_number && (int_of_str U x =? 1)%Z then
      (* 63-70 *)
      match s_bracket st with
      | None => Ok {| s_ids := s_ids st; s_par := s_par st; s_anon := s_anon st;
                      s_comp := s_comp st ++ [CGrp []]; s_bracket := None; s_next := s_next st |}
      | Some _ => Ok st
      end
    else if negb (is_number || check_axis_name U allow_underscore x) then Err EinopsError  (* 71-73 *)
    else if is_number && (int_of_str U x <=? 1)%Z then Err EinopsError                     (* 74-75, 12-18 *)
    else
      let ax := if is_number then AxAnon (s_next st) (int_of_str U x) else AxName x in
      let ids := set_add ax (s_ids st) in                                                  (* 76 *)
      let anon := if is_number then true else s_anon st in                                 (* 77-78 *)
      let next := if is_number then S (s_next st) else s_next st in
      match s_bracket st with                                                              (* 79-82 *)
      | None => Ok {| s_ids := ids; s_par := s_par st; s_anon := anon;
                      s_comp := s_comp st ++ [CGrp [ax]]; s_bracket := None; s_next := next |}
      | Some g => Ok {| s_ids := ids; s_par := s_par st; s_anon := anon;
                        s_comp := s_comp st; s_bracket := Some (g ++ [ax]); s_next := next |}
      end.

(** [if current_identifier is not None: add_axis_name(current_identifier)] *)
Definition flush (U : unicode) (au ad : bool) (cur : option pystr) (st : pstate) : result pstate :=
  match cur with Some x => add_axis_name U au ad x st | None => Ok st end.

(** parsing.py:85-110: the loop over characters and the final checks *)
Fixpoint parse_loop (U : unicode) (au ad : bool) (cs : pystr) (cur : option pystr) (st : pstate)
    : result pstate :=
  match cs with
  | [] =>
      match s_bracket st with
      | Some _ => Err EinopsError                                                          (* 107-108 *)
      | None => flush U au ad cur st                                                       (* 109-110 *)
      end
  | c :: cs' =>
      if (c =? c_open)%N || (c =? c_close)%N || (c =? c_space)%N then
        let* st1 := flush U au ad cur st in                                                (* 87-89 *)
        if (c =? c_open)%N then                                                            (* 90-93 *)
          match s_bracket st1 with
          | Some _ => Err EinopsError
          | None => parse_loop U au ad cs' None
                      {| s_ids := s_ids st1; s_par := s_par st1; s_anon := s_anon st1;
                         s_comp := s_comp st1; s_bracket := Some []; s_next := s_next st1 |}
          end
        else if (c =? c_close)%N then                                                      (* 94-98 *)
          match s_bracket st1 with
          | None => Err EinopsError
          | Some g => parse_loop U au ad cs' None
                        {| s_ids := s_ids st1; s_par := s_par st1; s_anon := s_anon st1;
                           s_comp := s_comp st1 ++ [CGrp g]; s_bracket := None; s_next := s_next st1 |}
          end
        else parse_loop U au ad cs' None st1
      else if u_alnum U c || (c =? c_under)%N || (c =? c_ell)%N then                       (* 99-103 *)
        parse_loop U au ad cs' (Some (match cur with None => [c] | Some w => w ++ [c] end)) st
      else Err EinopsError                                                                 (* 104-105 *)
  end.

Definition dots : pystr := lit "...".
Definition dot : pystr := lit ".".

Definition init_pstate (next : nat) : pstate :=
  {| s_ids := []; s_par := None; s_anon := false; s_comp := []; s_bracket := None; s_next := next |}.

(** parsing.py:30-110 [ParsedExpression.__init__].  [next] is the allocation
    counter before the call; it is returned updated. *)
Definition parse_expression (U : unicode) (allow_underscore allow_duplicates : bool)
    (next : nat) (expression : pystr) : result (parsed * nat) :=
  let has_dots := str_contains dot expression in                                           (* 38 *)
  let* _ := raise_if (has_dots && negb (str_contains dots expression)) EinopsError in      (* 39-40 *)
  let* _ := raise_if (has_dots && (negb (str_count dots expression =? 1)
                                   || negb (str_count dot expression =? 3))) EinopsError in (* 41-44 *)
  let expression := if has_dots then str_replace dots ellipsis_str expression else expression in (* 45-46 *)
  let* st := parse_loop U allow_underscore allow_duplicates expression None (init_pstate next) in
  Ok ({| p_has_ellipsis := has_dots; p_ell_par := s_par st; p_identifiers := s_ids st;
         p_anon := s_anon st; p_composition := s_comp st |}, s_next st).

(** parsing.py:120-125 [has_composed_axes] *)
Definition has_composed_axes (p : parsed) : bool :=
  existsb (fun c => match c with CGrp l => 1 <? length l | CEll => false end) (p_composition p).
