(** * Facts: without the messages, Messages.v is the model of the other files *)
From Verif Require Import Py ListFacts Tensor Parsing Recipe Ops Backends SpecGrammar ParseFacts ParseFacts2 Messages.

Definition plain_result {A} (x : outcome A) : result A :=
  match x with Fine a => Ok a | Wrong _ => Err EinopsError | Fails e => Err e end.

Lemma plain_then {A B} (m : outcome A) (f : A -> outcome B) :
  plain_result (and_then m f) = bind (plain_result m) (fun a => plain_result (f a)).
Proof. destruct m; reflexivity. Qed.
Lemma plain_lift {A} (r : result A) : plain_result (lift r) = r.
Proof. destruct r as [a|[]]; reflexivity. Qed.
Lemma plain_if c m : plain_result (wrong_if c m) = raise_if c EinopsError.
Proof. destruct c; reflexivity. Qed.
Lemma plain_map {A B} (f : A -> outcome B) l : plain_result (mapO f l) = mapM (fun a => plain_result (f a)) l.
Proof.
  induction l as [|a l IH]; cbn [mapO mapM]; [reflexivity|]. rewrite plain_then. apply bind_ext. intros b _.
  rewrite plain_then, IH. reflexivity.
Qed.
Lemma plain_fold {A B} (f : A -> B -> outcome A) l acc : plain_result (foldO f l acc) = foldM (fun a b => plain_result (f a b)) l acc.
Proof. revert acc. induction l as [|b l IH]; intros acc; cbn [foldO foldM]; [reflexivity|]. rewrite plain_then. apply bind_ext. intros a _. apply IH. Qed.

(** a success of either is a success of the other *)
Lemma plain_Fine {A} (x : outcome A) a : plain_result x = Ok a <-> x = Fine a.
Proof. destruct x; cbn; split; congruence. Qed.

Lemma reason_check U au x : match axis_name_reason U au x with None => true | Some _ => false end = check_axis_name U au x.
Proof.
  unfold axis_name_reason, check_axis_name. destruct (isidentifier U x); [|reflexivity]. cbn [negb].
  destruct ((hd 0%N x =? c_under)%N || (last x 0%N =? c_under)%N); [|reflexivity]. destruct (str_eqb x [c_under] && au); reflexivity.
Qed.

Lemma plain_add U au ad x st : plain_result (add_axis_name_msg U au ad x st) = add_axis_name U au ad x st.
Proof.
  unfold add_axis_name_msg.
  destruct (axis_mem (AxName x) (s_ids st) && negb (au && str_eqb x [c_under]) && negb ad) eqn:E1; [unfold add_axis_name; rewrite E1; reflexivity|].
  destruct (str_eqb x ellipsis_str) eqn:E2; [apply plain_lift|]. cbv zeta.
  destruct (isdecimal U x && (int_of_str U x =? 1)%Z) eqn:E3; [apply plain_lift|].
  rewrite plain_then. pose proof (reason_check U au x) as Hr.
  destruct (axis_name_reason U au x) as [w|] eqn:E4.
  - rewrite plain_if. destruct (isdecimal U x) eqn:E5; cbn [negb raise_if bind].
    + rewrite plain_then, plain_if. destruct (int_of_str U x <=? 1)%Z eqn:E6; cbn [andb raise_if bind]; [|apply plain_lift].
      unfold add_axis_name. rewrite E1, E2, E5. cbv zeta. cbn [andb] in E3. rewrite E3, E6. reflexivity.
    + unfold add_axis_name. rewrite E1, E2, E5, <- Hr. reflexivity.
  - cbn [plain_result bind]. rewrite plain_then, plain_if. destruct (isdecimal U x && (int_of_str U x <=? 1)%Z) eqn:E6; cbn [raise_if bind]; [|apply plain_lift].
    unfold add_axis_name. rewrite E1, E2. cbv zeta. rewrite E3, E6. apply andb_true_iff in E6 as [-> _]. reflexivity.
Qed.

Lemma plain_loop U au ad whole cs : forall cur st, plain_result (parse_loop_msg U au ad whole cs cur st) = parse_loop U au ad cs cur st.
Proof.
  assert (F : forall cur st, plain_result (flush_msg U au ad cur st) = flush U au ad cur st) by (intros [x|] st; [apply plain_add|reflexivity]).
  induction cs as [|c cs IH]; intros cur st; cbn [parse_loop_msg parse_loop]; [destruct (s_bracket st); [reflexivity|apply F]|].
  destruct ((c =? c_open)%N || (c =? c_close)%N || (c =? c_space)%N).
  - rewrite plain_then, F. apply bind_ext. intros st1 _. destruct (c =? c_open)%N; [destruct (s_bracket st1); [reflexivity|apply IH]|].
    destruct (c =? c_close)%N; [destruct (s_bracket st1); [apply IH|reflexivity]|apply IH].
  - destruct (u_alnum U c || (c =? c_under)%N || (c =? c_ell)%N); [apply IH|reflexivity].
Qed.

Lemma plain_parse U au ad k s : plain_result (parse_expression_msg U au ad k s) = parse_expression U au ad k s.
Proof.
  unfold parse_expression_msg, parse_expression. cbv zeta. rewrite plain_then, plain_if. apply bind_ext. intros _ _.
  rewrite plain_then, plain_if. apply bind_ext. intros _ _. rewrite plain_then, plain_loop. reflexivity.
Qed.

Lemma plain_check o op lft rght names : plain_result (check_identifiers_msg o op lft rght names) = check_identifiers op lft rght names.
Proof.
  unfold check_identifiers_msg, check_identifiers. cbv zeta. destruct op as [s|]; [|apply plain_if].
  destruct (str_eqb s s_rearrange); [rewrite plain_then, plain_if; apply bind_ext; intros _ _; apply plain_if|].
  destruct (str_eqb s s_repeat); [rewrite plain_then, plain_if; apply bind_ext; intros _ _; apply plain_if|].
  destruct (str_mem s reductions); [apply plain_if|reflexivity].
Qed.

Lemma plain_resolve lft rght n : plain_result (resolve_ellipsis_msg lft rght n) = resolve_ellipsis lft rght n.
Proof.
  unfold resolve_ellipsis_msg. cbv zeta. rewrite plain_then, plain_lift. unfold resolve_ellipsis.
  destruct (p_has_ellipsis lft); rewrite plain_if.
  - cbv zeta. destruct (n <? length (p_composition lft) - 1); reflexivity.
  - destruct (negb (n =? length (p_composition lft))); reflexivity.
Qed.

Lemma foldM_ext' {A B} (f g : A -> B -> result A) l acc : (forall a b, f a b = g a b) -> foldM f l acc = foldM g l acc.
Proof. intros H. revert acc. induction l as [|b l IH]; intros acc; cbn [foldM]; [reflexivity|]. rewrite H. apply bind_ext. intros a _. apply IH. Qed.

Lemma plain_mark U names d : plain_result (mark_expected_msg U names d) = mark_expected U names d.
Proof.
  unfold mark_expected_msg, mark_expected. rewrite plain_fold. apply foldM_ext'. intros a b.
  rewrite plain_then, plain_if. apply bind_ext. intros _ _. rewrite plain_then, plain_if. reflexivity.
Qed.
Lemma plain_known o d pos g : plain_result (known_unknown_msg o d pos g) = known_unknown o d pos g.
Proof.
  unfold known_unknown_msg, known_unknown. rewrite plain_then, plain_lift. apply bind_ext. intros vs _. cbv zeta.
  rewrite plain_then, plain_if. apply bind_ext. intros _ _. rewrite plain_then, plain_lift. apply bind_ext. intros _ _.
  rewrite plain_then, plain_lift. apply bind_ext. intros k _. rewrite plain_then, plain_lift. reflexivity.
Qed.

Lemma plain_prepare U o p op names n : plain_result (prepare_recipe_msg U o p op names n) = prepare_recipe U o p op names n.
Proof.
  unfold prepare_recipe_msg, prepare_recipe. destruct (str_split s_arrow p) as [|l [|r [|? ?]]]; try reflexivity.
  rewrite plain_then, plain_parse. apply bind_ext. intros [lft k] _. rewrite plain_then, plain_parse. apply bind_ext. intros [rght k'] _.
  rewrite plain_then, plain_if. apply bind_ext. intros _ _. rewrite plain_then, plain_if. apply bind_ext. intros _ _.
  rewrite plain_then, plain_check. apply bind_ext. intros _ _. rewrite plain_then, plain_resolve. apply bind_ext. intros [[[lcomp rcomp] lids] rids] _.
  cbv zeta. rewrite plain_then, plain_mark. apply bind_ext. intros d3 _. rewrite plain_then, plain_map.
  rewrite (mapM_ext_in _ (known_unknown o d3 (name2position (known_lengths_add (o 0 rids) (known_lengths_left lcomp)))) lcomp) by (intros g _; apply plain_known).
  apply bind_ext. intros input _. rewrite plain_then, plain_lift. apply bind_ext. intros output _. rewrite plain_then, plain_lift. apply bind_ext. intros perm _.
  rewrite plain_then, plain_lift. apply bind_ext. intros added _. rewrite plain_then, plain_lift. reflexivity.
Qed.

Lemma plain_infer {D} (O : dim_ops D) shape st x : plain_result (infer_step_msg O shape st x) = infer_step O shape st x.
Proof.
  destruct st as [al need], x as [i [known unknown]]. unfold infer_step_msg, infer_step.
  rewrite plain_then, plain_lift. apply bind_ext. intros len _.
  assert (G : plain_result (
        let! ks := lift (mapM (list_get al) known) in
        let known_product := fold_left (d_mul O) ks (d_of_Z O 1) in
        let! al :=
          match unknown with
          | [] =>
              match both_ints O len known_product with
              | Some (l, k) => if (l =? k)%Z then Fine al else Wrong (Mismatch l k)
              | None => Fine al
              end
          | u :: _ =>
              let! _ := match both_ints O len known_product with
                        | Some (l, k) => if (k =? 0)%Z then Fails ZeroDivisionError
                                         else wrong_if (negb (l mod k =? 0)%Z) (CannotDivide l k)
                        | None => Fine tt
                        end in
              let! q := lift (d_floordiv O len known_product) in
              lift (list_upd al u q)
          end in
        Fine (al, if length known + length unknown =? 1 then need else true)) =
        let* ks := mapM (list_get al) known in
        let known_product := fold_left (d_mul O) ks (d_of_Z O 1) in
        let* al :=
          match unknown with
          | [] =>
              match both_ints O len known_product with
              | Some (l, k) => if (l =? k)%Z then Ok al else Err EinopsError
              | None => Ok al
              end
          | u :: _ =>
              let* _ := match both_ints O len known_product with
                        | Some (l, k) => if (k =? 0)%Z then Err ZeroDivisionError
                                         else raise_if (negb (l mod k =? 0)%Z) EinopsError
                        | None => Ok tt
                        end in
              let* q := d_floordiv O len known_product in
              list_upd al u q
          end in
        Ok (al, if length known + length unknown =? 1 then need else true)).
  { rewrite plain_then, plain_lift. apply bind_ext. intros ks _. cbv zeta. rewrite plain_then. f_equal. destruct unknown as [|u us].
    - destruct (both_ints O len _) as [[l k]|]; [|reflexivity]. destruct (l =? k)%Z; reflexivity.
    - rewrite plain_then.
      transitivity (let* _ := match both_ints O len (fold_left (d_mul O) ks (d_of_Z O 1)) with
                        | Some (l, k) => if (k =? 0)%Z then Err ZeroDivisionError
                                         else raise_if (negb (l mod k =? 0)%Z) EinopsError
                        | None => Ok tt
                        end in plain_result (let! q := lift (d_floordiv O len (fold_left (d_mul O) ks (d_of_Z O 1))) in lift (list_upd al u q))).
      + f_equal. destruct (both_ints O len _) as [[l k]|]; [|reflexivity]. destruct (k =? 0)%Z; [reflexivity|apply plain_if].
      + apply bind_ext. intros _ _. rewrite plain_then, plain_lift. apply bind_ext. intros q _. apply plain_lift. }
  destruct known as [|kn known]; [destruct unknown as [|u [|u' us]]|]; try exact G.
  rewrite plain_then, plain_lift. reflexivity.
Qed.

Lemma plain_reconstruct {D} (O : dim_ops D) r shape dims : plain_result (reconstruct_msg O r shape dims) = reconstruct O r shape dims.
Proof.
  unfold reconstruct_msg. cbv zeta. rewrite plain_then, plain_lift.
  match goal with |- bind ?m _ = _ => destruct m as [al|e] eqn:E end.
  - cbn [bind]. rewrite plain_then, plain_fold, plain_lift. rewrite (foldM_ext' _ (infer_step O shape)) by (intros; apply plain_infer).
    unfold reconstruct. cbv zeta. rewrite E. cbn [bind]. destruct (foldM (infer_step O shape) (enumerate (r_input r)) (al, false)) as [[? ?]|e]; reflexivity.
  - cbn [bind]. unfold reconstruct. cbv zeta. rewrite E. reflexivity.
Qed.

Lemma plain_apply {T D} (O : dim_ops D) (B : backend T D) r t red sizes : plain_result (apply_recipe_msg O B r t red sizes) = apply_recipe O B r t red sizes.
Proof. unfold apply_recipe_msg, apply_recipe. rewrite plain_then, plain_reconstruct. apply bind_ext. intros k _. apply plain_lift. Qed.

(** ** the answers *)
Definition answer_class {T} (a : answer T) : result T :=
  match a with Returns t => Ok t | Reports _ => Err EinopsError | Raises e => Err e | UnboundLocal => Err AssertionError end.

Section Calls.
  Context {T D : Type} (U : unicode) (o : orders) (O : dim_ops D) (B : backend T D).
  Context (printable : N -> bool) (callable foreign : pystr) (dim_text : D -> pystr) (shape_text : list D -> pystr).

  Lemma body_result gb x p red sizes : gb = Ok tt ->
    plain_result (snd (reduce_body U o O B gb x p red sizes)) =
    let* tensor := stack_input B x in
    let* r := prepare_recipe U o p (op_of red) (map fst sizes) (length (b_shape B tensor)) in
    apply_recipe O B r tensor red sizes.
  Proof.
    intros ->. unfold reduce_body. cbn [bind].
    assert (G : plain_result (snd match stack_input B x with
        | Err e => ({| l_tensor := x; l_shape := @None (list D) |}, lift (Err e))
        | Ok tensor => ({| l_tensor := One tensor; l_shape := Some (b_shape B tensor) |},
             let! r := prepare_recipe_msg U o p (op_of red) (map fst sizes) (length (b_shape B tensor)) in
             apply_recipe_msg O B r tensor red sizes)
        end) = let* tensor := stack_input B x in
               let* r := prepare_recipe U o p (op_of red) (map fst sizes) (length (b_shape B tensor)) in
               apply_recipe O B r tensor red sizes).
    { destruct (stack_input B x) as [t|e]; cbn [bind snd]; [|apply (@plain_lift T (Err e))].
      rewrite plain_then, plain_prepare. apply bind_ext. intros r _. apply plain_apply. }
    destruct x as [t|[|t ts]]; [exact G|reflexivity|exact G].
  Qed.

  (** without the texts, the answer is what Ops.api_reduce says, and it is never UnboundLocalError *)
  Lemma answer_reduce x p red sizes :
    let a := reduce_answer U o O B printable callable foreign dim_text shape_text (Ok tt) x p red sizes in
    answer_class a = api_reduce U o O B x p red sizes /\ a <> UnboundLocal.
  Proof.
    cbv zeta. unfold reduce_answer, api_reduce. destruct (check_kwargs reserved_kwargs sizes) as [u|e]; cbn [bind]; [|split; [reflexivity|discriminate]].
    pose proof (body_result (Ok tt) x p red sizes eq_refl) as H.
    assert (V : forall m, snd (reduce_body U o O B (Ok tt) x p red sizes) = Wrong m ->
      match l_tensor (fst (reduce_body U o O B (Ok tt) x p red sizes)), l_shape (fst (reduce_body U o O B (Ok tt) x p red sizes)) with One _, None => False | _, _ => True end).
    { intros m. unfold reduce_body. cbn [bind]. destruct x as [t|[|t ts]]; cbn [stack_input]; [intros _; exact I|discriminate|].
      destruct (b_stack B (t :: ts)); intros _; exact I. }
    destruct (reduce_body U o O B (Ok tt) x p red sizes) as [vars res]. cbn [fst snd] in H, V. rewrite <- H.
    destruct res as [t|m|e]; cbn [plain_result answer_class]; [split; [reflexivity|discriminate]| |split; [reflexivity|discriminate]].
    specialize (V m eq_refl). destruct (l_tensor vars), (l_shape vars); try contradiction; split; try reflexivity; discriminate.
  Qed.
End Calls.

Lemma answer_xp {T} U o (X : array_ns T) printable callable foreign shape_text x p red sizes :
  let a := xp_reduce_answer U o X printable callable foreign shape_text x p red sizes in
  answer_class a = aa_reduce U o X x p red sizes /\ a <> UnboundLocal.
Proof.
  cbv zeta. unfold xp_reduce_answer, aa_reduce.
  destruct (check_kwargs reserved_kwargs sizes) as [u|e]; cbn [bind]; [|split; [reflexivity|discriminate]].
  destruct (stack_input_array_api X x) as [t|e]; cbn [bind]; [|split; [reflexivity|discriminate]]. cbv zeta.
  set (res := let! r := prepare_recipe_msg U o p (op_of red) (map fst sizes) (length (xp_shape X t)) in
              let! k := reconstruct_msg int_ops r (xp_shape X t) sizes in lift (apply_cooked_array_api X k t red)).
  assert (H : plain_result res = let* r := prepare_recipe U o p (op_of red) (map fst sizes) (length (xp_shape X t)) in apply_recipe_array_api X r t red sizes).
  { subst res. rewrite plain_then, plain_prepare. apply bind_ext. intros r _. unfold apply_recipe_array_api. rewrite plain_then, plain_reconstruct.
    apply bind_ext. intros k _. apply plain_lift. }
  rewrite <- H. destruct res; split; try reflexivity; discriminate.
Qed.
