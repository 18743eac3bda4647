(** * Facts: without the messages, LayerMessages.v is the model of the other files;
    messages of the layers are true *)
From Verif Require Import Py Tensor ListFacts SpecSem SpecGrammar SpecPattern SpecOps Parsing Compile Recipe Ops Backends ParseFacts ParseFacts2 ParseFacts3
  FrontFacts FrontFacts2 Layers LayerFacts EinMix Texts Messages SpecMessages MessageFacts MessageFacts2 MessageFacts3 ComplaintFacts LayerMessages SpecLayerMessages.

(** ** the layers *)
Lemma plain_all_dims U os p op names : plain_result (prepare_all_dims_msg U os p op names) = prepare_all_dims U os p op names.
Proof.
  unfold prepare_all_dims_msg, prepare_all_dims. destruct (str_split s_arrow p) as [|l [|r [|? ?]]]; try reflexivity.
  rewrite plain_then, plain_parse. apply bind_ext. intros [lft k] _. rewrite plain_map. apply mapM_ext_in. intros n _.
  rewrite plain_then, plain_prepare. reflexivity.
Qed.
Definition answer_result {A} (a : answer A) : result A :=
  match a with Returns t => Ok t | Reports _ => Err EinopsError | Raises e => Err e | UnboundLocal => Err RuntimeError end.
Section Layer.
  Context {T : Type} (U : unicode) (os : nat -> orders).
  Lemma plain_make p (red : reduction T) sizes : plain_result (make_layer_msg U os p red sizes) = make_layer U os p red sizes.
  Proof. unfold make_layer_msg, make_layer. rewrite plain_then, plain_all_dims. reflexivity. Qed.
  Lemma plain_rearrange p sizes : plain_result (Rearrange_msg (T := T) U os p sizes) = Rearrange U os p sizes.
  Proof. unfold Rearrange_msg, Rearrange. rewrite plain_then, plain_lift. apply bind_ext. intros _ _. apply plain_make. Qed.
  Lemma plain_reduce p (red : reduction T) sizes : plain_result (Reduce_msg U os p red sizes) = Reduce U os p red sizes.
  Proof. unfold Reduce_msg, Reduce. rewrite plain_then, plain_lift. apply bind_ext. intros _ _. apply plain_make. Qed.

  Context (HU : unicode_ok U) (Hos : forall n, orders_ok (os n)).
  Lemma all_dims_true p op sizes m : prepare_all_dims_msg U os p op (map fst sizes) = Wrong m -> true_of_layer U p op sizes m.
  Proof.
    unfold prepare_all_dims_msg. destruct (str_split s_arrow p) as [|l [|r [|? ?]]] eqn:Es; try discriminate. intros H.
    apply then_Wrong in H as [H|[[lft k] [H1 H]]].
    { apply (parse_true U false false 0 l m HU) in H as [Ha Hs]. split; [destruct m; try discriminate; reflexivity|]. exists 0. intros shape _.
      unfold true_of_call. rewrite Ha. apply split_two in Es. exists l, r. split; [exact Es|]. left. exact Hs. }
    apply (parsed_side U HU) in H1 as [L [HL EL]].
    apply mapO_Wrong in H as [n [Hn H]]. apply then_Wrong in H as [H|[rec [_ H]]]; [|discriminate].
    assert (Ht : forall shape, length shape = n -> true_of_call U p op sizes shape m).
    { intros shape E. apply (prepare_true U HU (os n) (Hos n)). rewrite E. exact H. }
    assert (El : lft = fst (compile 0 L)) by (rewrite <- EL; reflexivity). subst lft. clear EL.
    assert (Hr : forall L' R', reads U p L' R' -> L' = L).
    { intros L' R' Hr. apply (reads_split U HU) in Hr as [l' [r' [E [HL' _]]]]. rewrite Es in E. injection E as <- <-.
      exact (written_fun U false false l L' L HU HL' HL). }
    split; [|exists n; exact Ht].
    destruct m; try reflexivity; exfalso.
    - destruct (Ht (repeat 0 n) (repeat_length _ _)) as (L' & R' & Hrd & E1 & E2 & E3 & E4). cbn in *. apply Hr in Hrd. subst L'.
      unfold dims_of_left, compile in Hn. cbn [fst p_has_ellipsis p_composition] in Hn. rewrite comps_length, E2, E3 in Hn. apply in_map_iff in Hn as [d [<- _]].
      rewrite repeat_length in E1. lia.
    - destruct (Ht (repeat 0 n) (repeat_length _ _)) as (L' & R' & Hrd & E1 & E2 & E3 & E4). cbn in *. apply Hr in Hrd. subst L'.
      unfold dims_of_left, compile in Hn. cbn [fst p_has_ellipsis p_composition] in Hn. rewrite comps_length, E2, E3 in Hn. destruct Hn as [<-|[]].
      rewrite repeat_length in E1. lia.
    - destruct (Ht (repeat 0 n) (repeat_length _ _)) as (L' & R' & _ & e & i & g & d & val & _ & _ & Hd & E & _).
      destruct (Ht (repeat 1 n) (repeat_length _ _)) as (L'' & R'' & _ & e' & i' & g' & d' & val' & _ & _ & Hd' & E' & _).
      apply nth_error_In, repeat_spec in Hd, Hd'. subst. lia.
    - destruct (Ht (repeat 0 n) (repeat_length _ _)) as (L' & R' & _ & e & i & g & d & val & a & g1 & g2 & _ & _ & Hd & E & _).
      destruct (Ht (repeat 1 n) (repeat_length _ _)) as (L'' & R'' & _ & e' & i' & g' & d' & val' & a' & g1' & g2' & _ & _ & Hd' & E' & _).
      apply nth_error_In, repeat_spec in Hd, Hd'. subst. lia.
    - destruct (Ht (repeat 0 n) (repeat_length _ _)) as (L' & R' & _ & []).
  Qed.
  Lemma make_true p (red : reduction T) sizes m : make_layer_msg U os p red sizes = Wrong m -> true_of_layer U p (op_of red) sizes m.
  Proof. unfold make_layer_msg. intros H. apply then_Wrong in H as [H|[recipes [_ H]]]; [|discriminate]. apply all_dims_true. exact H. Qed.
  Lemma kwargs_quiet {D} names (d : list (pystr * D)) m : lift (check_kwargs names d) <> Wrong m.
  Proof. apply clean_lift. unfold check_kwargs. apply clean_if. discriminate. Qed.
  Lemma rearrange_true p sizes m : Rearrange_msg (T := T) U os p sizes = Wrong m -> true_of_layer U p (OpStr (lit "rearrange")) sizes m.
  Proof. unfold Rearrange_msg. intros H. apply then_Wrong in H as [H|[x [_ H]]]; [exfalso; exact (kwargs_quiet _ _ _ H)|]. apply (make_true p (RStr s_rearrange)). exact H. Qed.
  Lemma reduce_true p (red : reduction T) sizes m : Reduce_msg U os p red sizes = Wrong m -> true_of_layer U p (op_of red) sizes m.
  Proof. unfold Reduce_msg. intros H. apply then_Wrong in H as [H|[x [_ H]]]; [exfalso; exact (kwargs_quiet _ _ _ H)|]. apply make_true. exact H. Qed.
End Layer.

(** ** EinMix *)
Definition plain_attempt {A} (x : attempt A) : result A :=
  match x with Made a => Ok a | Faulty _ => Err EinopsError | Throws e => Err e end.
Lemma made_then {A B} (m : attempt A) (f : A -> attempt B) :
  plain_attempt (and_made m f) = bind (plain_attempt m) (fun a => plain_attempt (f a)).
Proof. destruct m; reflexivity. Qed.
Lemma made_silent {A} (r : result A) : plain_attempt (silent r) = r.
Proof. destruct r; reflexivity. Qed.
Lemma made_if c f : plain_attempt (faulty_if c f) = raise_if c EinopsError.
Proof. destruct c; reflexivity. Qed.
Lemma made_text {A} (r : outcome A) : plain_attempt (text_of r) = plain_result r.
Proof. destruct r; reflexivity. Qed.
Lemma made_fold {A B} (f : A -> B -> attempt A) l acc : plain_attempt (foldA f l acc) = foldM (fun a b => plain_attempt (f a b)) l acc.
Proof. revert acc. induction l as [|b l IH]; intros acc; cbn [foldA foldM]; [reflexivity|]. rewrite made_then. apply bind_ext. intros a _. apply IH. Qed.
Lemma made_report o axes f : plain_attempt (report_axes_msg o axes f) = report_axes axes.
Proof. apply made_if. Qed.

Lemma existsb_perm {A} (p : A -> bool) l l' : Permutation l l' -> existsb p l = existsb p l'.
Proof.
  intros H. apply eq_true_iff_eq. rewrite !existsb_exists. split; intros [x [Hx E]]; exists x; (split; [|exact E]).
  - eapply Permutation_in; eauto.
  - eapply Permutation_in; [apply Permutation_sym|]; eauto.
Qed.

Section Mix.
  Context {T : Type} (U : unicode) (o : orders) (os os' : nat -> orders) (Ho : orders_ok o).
  Lemma made_parse p w : plain_attempt (einmix_parse_msg U o p w) = einmix_parse U p w.
  Proof.
    unfold einmix_parse_msg, einmix_parse. destruct (str_split s_arrow p) as [|l [|r [|? ?]]]; try reflexivity.
    rewrite made_then, made_text, plain_parse. apply bind_ext. intros [lft k1] _.
    rewrite made_then, made_text, plain_parse. apply bind_ext. intros [rght k2] _.
    rewrite made_then, made_text, plain_parse. apply bind_ext. intros [weight k3] _.
    rewrite made_then, made_report. apply bind_ext. intros _ _.
    do 5 (rewrite made_then, made_if; apply bind_ext; intros _ _). reflexivity.
  Qed.
  Lemma made_layer os1 p lengths : plain_attempt (rearrange_layer_msg (T := T) U os1 p lengths) = Rearrange U os1 p lengths.
  Proof. unfold rearrange_layer_msg. rewrite <- plain_rearrange. destruct (Rearrange_msg U os1 p lengths); reflexivity. Qed.
  Lemma made_layers pre post : plain_attempt (rearrange_layers_msg (T := T) U os os' pre post) = rearrange_layers U os os' pre post.
  Proof.
    unfold rearrange_layers_msg, rearrange_layers. rewrite made_then.
    replace (plain_attempt (match pre with Some (p, lengths) => _ | None => _ end)) with
      (match pre with Some (p, lengths) => let* L := Rearrange (T := T) U os p lengths in Ok (Some L) | None => Ok None end)
      by (destruct pre as [[p lengths]|]; [rewrite made_then, made_layer|]; reflexivity).
    apply bind_ext. intros a _. rewrite made_then.
    replace (plain_attempt (match post with Some p => _ | None => _ end)) with
      (match post with Some p => let* L := Rearrange (T := T) U os' p [] in Ok (Some L) | None => Ok None end)
      by (destruct post as [p|]; [rewrite made_then, made_layer|]; reflexivity).
    reflexivity.
  Qed.
  Lemma made_check lft rght weight sizes : plain_attempt (einmix_check_msg o lft rght weight sizes) = einmix_check lft rght weight sizes.
  Proof.
    unfold einmix_check_msg, einmix_check. rewrite made_then, made_fold.
    rewrite (foldM_ext' _ (fun _ a => raise_if (match a with AxName s => negb (dict_has str_eqb s sizes) | AxAnon _ _ => true end) EinopsError)) by (intros [] a; apply made_if).
    rewrite foldM_unit_ok. rewrite (existsb_perm _ _ _ (Ho 3 (p_identifiers weight))). apply bind_ext. intros _ _.
    rewrite made_then, made_report. apply bind_ext. intros _ _. apply made_report.
  Qed.
  Lemma made_step ids sizes st a : plain_attempt (bias_step_msg ids sizes st a) = bias_step ids sizes st a.
  Proof.
    destruct st as [sh u]. unfold bias_step_msg, bias_step. destruct (axis_eqb a ax_ellipsis); [rewrite made_then, made_if; reflexivity|].
    destruct (axis_mem a ids); [rewrite made_then, made_silent|]; reflexivity.
  Qed.
  Lemma made_bias rght k b sizes : plain_attempt (bias_lengths_msg U o rght k b sizes) = bias_lengths U rght k b sizes.
  Proof.
    unfold bias_lengths_msg, bias_lengths. destruct b as [text|]; [|reflexivity]. rewrite made_then, made_text, plain_parse. apply bind_ext. intros [bias k'] _.
    rewrite made_then, made_report. apply bind_ext. intros _ _. rewrite made_then, made_report. apply bind_ext. intros _ _.
    rewrite made_then, made_fold. rewrite (foldM_ext' _ (bias_step (p_identifiers bias) sizes)) by (intros; apply made_step). apply bind_ext. intros [sh u] _. reflexivity.
  Qed.
  Lemma made_einmix p w b sizes : plain_attempt (EinMix_msg (T := T) U o os os' p w b sizes) = EinMix U os os' p w b sizes.
  Proof.
    unfold EinMix_msg, EinMix. rewrite made_then, made_silent. apply bind_ext. intros _ _. unfold initialize_einmix_msg, initialize_einmix.
    rewrite made_then, made_parse. apply bind_ext. intros [[[[[l r] lft] rght] weight] k] _.
    rewrite made_then, made_layers. apply bind_ext. intros [pre post] _. rewrite made_then, made_check. apply bind_ext. intros _ _.
    rewrite made_then, made_silent. apply bind_ext. intros wl _. rewrite made_then, made_silent. apply bind_ext. intros fi _.
    rewrite made_then, made_bias. apply bind_ext. intros bl _. rewrite made_then, made_silent. apply bind_ext. intros _ _.
    rewrite made_then, made_silent. reflexivity.
  Qed.
End Mix.
