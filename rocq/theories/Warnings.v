(** * Warnings about the names of axes

    parsing.py:127-143 warns about names that are Python keywords
    ([RuntimeWarning]) and about the name "axis" ([FutureWarning]).  Here the
    functions that check names are followed a second time, with the warnings they
    issue.  A computation is the list of warnings issued, in order, and the
    outcome. *)
From Verif Require Import Py Tensor Parsing Recipe Packing Cache.

Inductive warning := KeywordName (name : pystr) | AxisName.

Definition logged (A : Type) : Type := list warning * result A.
Definition wret {A} (a : result A) : logged A := ([], a).
Definition wbind {A B} (a : logged A) (f : A -> logged B) : logged B :=
  match snd a with
  | Ok x => let b := f x in (fst a ++ fst b, snd b)
  | Err e => (fst a, Err e)
  end.
Notation "'wlet' x ':=' a 'in' b" := (wbind a (fun x => b)) (at level 200, x pattern, a at level 100, b at level 200).

(** What a filter "error" makes of it (python -W error): the first warning is
    raised as an exception. *)
Inductive strictly (A : Type) := Raised (w : warning) | Went (a : result A).
Arguments Raised {A}. Arguments Went {A}.
Definition strict {A} (a : logged A) : strictly A := match fst a with w :: _ => Raised w | [] => Went (snd a) end.

Section Warnings.
  (** [keyword.iskeyword] of the interpreter *)
  Context (U : unicode) (iskeyword : pystr -> bool).

  (** parsing.py:127-143 [check_axis_name_return_reason] (reason dropped) *)
  Definition check_axis_name_w (allow_underscore : bool) (name : pystr) : list warning * bool :=
    if negb (isidentifier U name) then ([], false)                                       (* 129-130 *)
    else if (hd 0%N name =? c_under)%N || (last name 0%N =? c_under)%N                   (* 131-134 *)
         then ([], str_eqb name [c_under] && allow_underscore)
         else ((if iskeyword name then [KeywordName name] else []) ++                    (* 136-137 *)
               (if str_mem name [lit "axis"] then [AxisName] else []), true).            (* 138-142 *)

  (** parsing.py:50-82 [add_axis_name]: names are checked in line 71 only *)
  Definition add_axis_name_w (au ad : bool) (x : pystr) (st : pstate) : logged pstate :=
    if axis_mem (AxName x) (s_ids st) && negb (au && str_eqb x [c_under]) && negb ad     (* 51-53 *)
    then wret (add_axis_name U au ad x st)
    else if str_eqb x ellipsis_str then wret (add_axis_name U au ad x st)                (* 54-61 *)
    else if isdecimal U x && (int_of_str U x =? 1)%Z then wret (add_axis_name U au ad x st) (* 63-70 *)
    else (fst (check_axis_name_w au x), add_axis_name U au ad x st).                     (* 71-82 *)

  Definition flush_w (au ad : bool) (cur : option pystr) (st : pstate) : logged pstate :=
    match cur with Some x => add_axis_name_w au ad x st | None => wret (Ok st) end.

  (** parsing.py:85-110 *)
  Fixpoint parse_loop_w (au ad : bool) (cs : pystr) (cur : option pystr) (st : pstate) : logged pstate :=
    match cs with
    | [] => match s_bracket st with
            | Some _ => wret (Err EinopsError)                                           (* 107-108 *)
            | None => flush_w au ad cur st                                               (* 109-110 *)
            end
    | c :: cs' =>
        if (c =? c_open)%N || (c =? c_close)%N || (c =? c_space)%N then
          wlet st1 := flush_w au ad cur st in                                            (* 87-89 *)
          if (c =? c_open)%N then                                                        (* 90-93 *)
            match s_bracket st1 with
            | Some _ => wret (Err EinopsError)
            | None => parse_loop_w au ad cs' None
                        {| s_ids := s_ids st1; s_par := s_par st1; s_anon := s_anon st1;
                           s_comp := s_comp st1; s_bracket := Some []; s_next := s_next st1 |}
            end
          else if (c =? c_close)%N then                                                  (* 94-98 *)
            match s_bracket st1 with
            | None => wret (Err EinopsError)
            | Some g => parse_loop_w au ad cs' None
                          {| s_ids := s_ids st1; s_par := s_par st1; s_anon := s_anon st1;
                             s_comp := s_comp st1 ++ [CGrp g]; s_bracket := None; s_next := s_next st1 |}
            end
          else parse_loop_w au ad cs' None st1
        else if u_alnum U c || (c =? c_under)%N || (c =? c_ell)%N then                   (* 99-103 *)
          parse_loop_w au ad cs' (Some (match cur with None => [c] | Some w => w ++ [c] end)) st
        else wret (Err EinopsError)                                                      (* 104-105 *)
    end.

  (** parsing.py:30-110 [ParsedExpression.__init__] *)
  Definition parse_expression_w (allow_underscore allow_duplicates : bool) (next : nat) (expression : pystr)
      : logged (parsed * nat) :=
    let has_dots := str_contains dot expression in
    wlet _ := wret (raise_if (has_dots && negb (str_contains dots expression)) EinopsError) in
    wlet _ := wret (raise_if (has_dots && (negb (str_count dots expression =? 1)
                                           || negb (str_count dot expression =? 3))) EinopsError) in
    let expression := if has_dots then str_replace dots ellipsis_str expression else expression in
    wlet st := parse_loop_w allow_underscore allow_duplicates expression None (init_pstate next) in
    wret (Ok ({| p_has_ellipsis := has_dots; p_ell_par := s_par st; p_identifiers := s_ids st;
                 p_anon := s_anon st; p_composition := s_comp st |}, s_next st)).

  (** einops.py:393-398: the names of the given lengths are checked again *)
  Fixpoint mark_expected_w (axes_names : list pystr) (d : list (axis * Z)) : logged (list (axis * Z)) :=
    match axes_names with
    | [] => wret (Ok d)
    | name :: axes_names =>
        wlet valid := (fst (check_axis_name_w false name), Ok (snd (check_axis_name_w false name))) in
        wlet _ := wret (raise_if (negb valid) EinopsError) in
        wlet _ := wret (raise_if (negb (dict_has axis_eqb (AxName name) d)) EinopsError) in
        mark_expected_w axes_names (dict_set axis_eqb (AxName name) expected_axis_length d)
    end.

  (** einops.py:289-442 [_prepare_transformation_recipe] *)
  Definition prepare_recipe_w (o : orders) (pattern : pystr) (op : operation) (axes_names : list pystr) (ndim : nat) : logged recipe :=
    match str_split s_arrow pattern with
    | [left_str; rght_str] =>
      wlet (lft, next) := parse_expression_w false false 0 left_str in                   (* 300 *)
      wlet (rght, _) := parse_expression_w false false next rght_str in                  (* 301 *)
      wlet _ := wret (raise_if (negb (p_has_ellipsis lft) && p_has_ellipsis rght) EinopsError) in
      wlet _ := wret (raise_if (p_has_ellipsis lft
                          && match p_ell_par lft with Some b => b | None => false end) EinopsError) in
      wlet _ := wret (check_identifiers op lft rght axes_names) in
      wlet (lcomp, rcomp, lids, rids) := wret (resolve_ellipsis lft rght ndim) in
      let d1 := known_lengths_left lcomp in
      let d2 := known_lengths_add (o 0 rids) d1 in
      let pos := name2position d2 in
      wlet d3 := mark_expected_w axes_names d2 in                                        (* 393-398 *)
      (* from here on no name is checked (400-442) *)
      wret (let* input := mapM (known_unknown o d3 pos) lcomp in
            let* output := mapM (mapM (fun a => dict_getr a pos)) rcomp in
            let ordered_left := concat lcomp in
            let ordered_rght := concat rcomp in
            let reduced := filter (fun a => negb (axis_mem a rids)) ordered_left in
            let order_after := filter (fun a => axis_mem a lids) ordered_rght ++ reduced in
            let* perm := mapM (fun a => axis_index a ordered_left) order_after in
            let* added := mapM (fun '(i, a) => let* p := dict_getr a pos in Ok (i, p))
                            (filter (fun '(_, a) => negb (axis_mem a lids)) (enumerate ordered_rght)) in
            let* n2e := mapM (fun s => let* p := dict_getr (AxName s) pos in Ok (s, p)) axes_names in
            Ok {| r_elementary := map snd d3; r_name2elem := n2e; r_input := input; r_perm := perm;
                  r_first_reduced := length order_after - length reduced; r_added := added; r_output := output |})
    | _ => wret (Err ValueError)
    end.

  (** packing.py:14-31 [analyze_pattern] *)
  Fixpoint check_axes_w (axes : list pystr) : logged unit :=                            (* 23-27 *)
    match axes with
    | [] => wret (Ok tt)
    | axis :: axes =>
        wlet _ := (if str_eqb axis star then wret (Ok tt)
                   else (fst (check_axis_name_w false axis), raise_if (negb (snd (check_axis_name_w false axis))) EinopsError)) in
        check_axes_w axes
    end.
  Definition analyze_pattern_w (pattern : pystr) : logged (nat * nat * nat) :=
    let axes := str_words U pattern in
    let axes_set := nodup str_eq_dec axes in
    wlet _ := wret (raise_if (negb (length axes =? length axes_set)) EinopsError) in
    wlet _ := wret (raise_if (negb (str_mem star axes_set)) EinopsError) in
    wlet _ := check_axes_w axes in
    wret (let* n_axes_before := of_option ValueError (index_of str_eqb star axes) in
          let n_axes_after := length axes - n_axes_before - 1 in
          Ok (n_axes_before, n_axes_after, n_axes_before + n_axes_after)).

  (** A function with warnings behind functools.lru_cache: a hit runs nothing. *)
  Definition lru_w {K V} (eqb : K -> K -> bool) (maxsize : nat) (compute : unit -> logged V) (k : K) (c : list (K * V))
      : logged V * list (K * V) :=
    match take_key eqb k c with
    | Some (e, rest) => (wret (Ok (snd e)), e :: rest)
    | None => match snd (compute tt) with
              | Ok v => (compute tt, firstn maxsize ((k, v) :: c))
              | Err e => (compute tt, c)
              end
    end.
  Definition cached_prepare_w (maxsize : nat) (o : orders) (k : rkey) (c : list (rkey * recipe)) : logged recipe * list (rkey * recipe) :=
    let '(p, op, ns, n) := k in
    lru_w rkey_eqb maxsize (fun _ => prepare_recipe_w o p (op_of_key op) ns n) k c.
End Warnings.
