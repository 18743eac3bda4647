(** * Facts: the warnings of the constructors of layers *)
From Verif Require Import Py Tensor Parsing Recipe Ops Backends Api Einsum Cache CacheFacts Warnings Layers EinMix
  ListFacts SpecGrammar SpecPattern Compile ParseFacts ParseFacts2 ParseFacts3 FrontFacts FrontFacts2 LayerWarnings LayerWarnFacts.
From Verif Require SessionFacts MixFacts MixFacts4.
From Verif Require Import SpecWarnings WarnFacts SpecLayerWarnings.

Lemma tbind_Ok {A B} (a : told A) (f : A -> told B) c y : told_result (tbind a f c) = Ok y ->
  exists x, told_result (a c) = Ok x /\ told_result (f x (told_memo (a c))) = Ok y /\ told_log (tbind a f c) = told_log (a c) ++ told_log (f x (told_memo (a c))) /\
    told_memo (tbind a f c) = told_memo (f x (told_memo (a c))).
Proof.
  intros H. rewrite tres_bind in H. apply bind_Ok in H as [x [H1 H2]]. exists x. rewrite tlog_bind, tmemo_bind, H1. auto.
Qed.
Lemma tret_parts {A} (r : result A) c : told_result (tret r c) = r /\ told_log (tret r c) = [] /\ told_memo (tret r c) = c.
Proof. auto. Qed.

Lemma tres_tret {A} (r : result A) c : told_result (tret r c) = r. Proof. reflexivity. Qed.
Lemma tlog_tret {A} (r : result A) c : told_log (tret r c) = []. Proof. reflexivity. Qed.
Lemma tmemo_tret {A} (r : result A) c : told_memo (tret r c) = c. Proof. reflexivity. Qed.
Lemma tres_tnames {A} (a : logged A) c : told_result (tnames a c) = snd a. Proof. reflexivity. Qed.
Lemma tmemo_tnames {A} (a : logged A) c : told_memo (tnames a c) = c. Proof. reflexivity. Qed.

Section Layer.
  Context {T : Type} (U : unicode) (HU : unicode_ok U) (K : pystr -> bool) (m : nat).

  Lemma names_parsed k s e (c : memo) : written U s e ->
    tnames (parse_expression_w U K false false k s) c = (said K (written_names e), Ok (compile k e), c).
  Proof. intros H. unfold tnames. rewrite (parse_alarms U K HU false false k s e H). reflexivity. Qed.

  Lemma dims_length L : length (dims_of_left (fst (compile 0 L))) = recipes_of L.
  Proof. unfold dims_of_left, recipes_of, compile. cbn [fst p_has_ellipsis]. destruct (has_dots L); [rewrite map_length, seq_length|]; reflexivity. Qed.

  Lemma all_dims_run os p op ns L R c : reads U p L R ->
    all_dims_t U K m os p op ns c = let '(log, r, c1) := loop U K m os p op ns (dims_of_left (fst (compile 0 L))) c in (said K (written_names L) ++ log, r, c1).
  Proof.
    intros Hr. apply (reads_split U HU) in Hr as (l & r & E & HL & HR). unfold all_dims_t. rewrite E. unfold tbind at 1. rewrite (names_parsed 0 l L c HL).
    rewrite (surjective_pairing (compile 0 L)). unfold loop. reflexivity.
  Qed.
  Lemma all_dims_first os p op ns L R c rs : reads U p L R -> (forall n, ~ In (p, op, ns, n) (map fst c)) -> told_result (all_dims_t U K m os p op ns c) = Ok rs ->
    told_log (all_dims_t U K m os p op ns c) = layer_notices K (written_names L) (written_names R) ns (recipes_of L) /\
    incl (map fst (told_memo (all_dims_t U K m os p op ns c))) (map fst c ++ map (fun n => (p, op, ns, n)) (dims_of_left (fst (compile 0 L)))).
  Proof.
    intros Hr Hm E. rewrite (all_dims_run os p op ns L R c Hr) in *. pose proof (loop_first U HU K m os p op ns L R Hr (dims_of_left (fst (compile 0 L))) (SessionFacts.dims_NoDup _) c rs (fun n _ => Hm n)) as X.
    destruct (loop U K m os p op ns (dims_of_left (fst (compile 0 L))) c) as [[log r] c1]. unfold told_result, told_log, told_memo in *. cbn [fst snd] in *. destruct (X E) as [X1 X2]. split; [|exact X2].
    rewrite X1, dims_length. reflexivity.
  Qed.
  Lemma all_dims_again os os' p op ns L R c rs : reads U p L R -> 8 <= m -> told_result (all_dims_t U K m os p op ns c) = Ok rs ->
    told_log (all_dims_t U K m os' p op ns (told_memo (all_dims_t U K m os p op ns c))) = said K (written_names L) /\
    told_result (all_dims_t U K m os' p op ns (told_memo (all_dims_t U K m os p op ns c))) = Ok rs.
  Proof.
    intros Hr Hm E. rewrite (all_dims_run os p op ns L R c Hr) in *. set (ds := dims_of_left (fst (compile 0 L))) in *.
    assert (Hl : length ds <= m) by (unfold ds; rewrite dims_length; unfold recipes_of; destruct (has_dots L); lia).
    pose proof (loop_found U K m os p op ns ds c rs (SessionFacts.dims_NoDup _) Hl) as X. destruct (loop U K m os p op ns ds c) as [[log r] c1]. unfold told_result, told_memo in *. cbn [fst snd] in *.
    destruct (X E) as [X1 X2]. rewrite (all_dims_run os' p op ns L R c1 Hr). fold ds. rewrite <- X1. pose proof (loop_again U K m os' p op ns rs c1 X2) as [Y1 Y2].
    destruct (loop U K m os' p op ns (map fst rs) c1) as [[log2 r2] c2]. unfold told_log, told_result in *. cbn [fst snd] in *. rewrite Y1, app_nil_r. auto.
  Qed.
  Lemma all_dims_result os p op ns c : (forall n, orders_ok (os n)) -> memo_ok U c ->
    exists os1, (forall n, orders_ok (os1 n)) /\ told_result (all_dims_t U K m os p op ns c) = prepare_all_dims U os1 p (op_of_key op) ns /\ memo_ok U (told_memo (all_dims_t U K m os p op ns c)).
  Proof.
    intros Ho Hc. unfold all_dims_t, prepare_all_dims. destruct (str_split s_arrow p) as [|l [|r [|]]]; try (exists os; auto; fail).
    rewrite tres_bind, tmemo_bind, tres_tnames, tmemo_tnames, parse_w_snd.
    destruct (parse_expression U false false 0 l) as [[lft next]|e]; cbn [bind]; [|exists os; auto].
    apply (loop_result U K m os p op ns (dims_of_left lft) (SessionFacts.dims_NoDup lft) Ho c Hc).
  Qed.

  (** ** Rearrange and Reduce *)
  Lemma Rearrange_result os p sizes c : (forall n, orders_ok (os n)) -> memo_ok U c ->
    exists os1, (forall n, orders_ok (os1 n)) /\ told_result (Rearrange_t (T := T) U K m os p sizes c) = Rearrange U os1 p sizes /\ memo_ok U (told_memo (Rearrange_t (T := T) U K m os p sizes c)).
  Proof.
    intros Ho Hc. unfold Rearrange_t, Rearrange. rewrite tres_bind, tmemo_bind. destruct (tret_parts (check_kwargs [lit "self"; lit "pattern"] sizes) c) as (-> & _ & ->).
    destruct (check_kwargs _ sizes) as [u|e]; [|exists os; auto]. cbn [bind]. rewrite tres_bind, tmemo_bind.
    destruct (all_dims_result os p (KStr s_rearrange) (map fst sizes) c Ho Hc) as (os1 & O1 & R1 & M1). exists os1. split; [exact O1|]. rewrite R1. unfold make_layer. cbn [op_of op_of_key].
    destruct (prepare_all_dims U os1 p (OpStr s_rearrange) (map fst sizes)) as [rs|e]; split; try reflexivity; exact M1.
  Qed.
  Lemma Reduce_result os id p red sizes c : (forall n, orders_ok (os n)) -> memo_ok U c ->
    exists os1, (forall n, orders_ok (os1 n)) /\ told_result (Reduce_t (T := T) U K m os id p red sizes c) = Reduce U os1 p red sizes /\ memo_ok U (told_memo (Reduce_t (T := T) U K m os id p red sizes c)).
  Proof.
    intros Ho Hc. unfold Reduce_t, Reduce. rewrite tres_bind, tmemo_bind. destruct (tret_parts (check_kwargs [lit "self"; lit "pattern"; lit "reduction"] sizes) c) as (-> & _ & ->).
    destruct (check_kwargs _ sizes) as [u|e]; [|exists os; auto]. cbn [bind]. rewrite tres_bind, tmemo_bind.
    destruct (all_dims_result os p (red_key id red) (map fst sizes) c Ho Hc) as (os1 & O1 & R1 & M1). exists os1. split; [exact O1|]. rewrite R1. unfold make_layer.
    assert (E : op_of_key (red_key id red) = op_of red) by (destruct red; reflexivity). rewrite E.
    destruct (prepare_all_dims U os1 p (op_of red) (map fst sizes)) as [rs|e]; split; try reflexivity; exact M1.
  Qed.
  Lemma Rearrange_first os p sizes L R c M : reads U p L R -> (forall n, ~ In (p, KStr s_rearrange, map fst sizes, n) (map fst c)) ->
    told_result (Rearrange_t (T := T) U K m os p sizes c) = Ok M ->
    told_log (Rearrange_t (T := T) U K m os p sizes c) = layer_notices K (written_names L) (written_names R) (map fst sizes) (recipes_of L) /\
    forall k, In k (map fst (told_memo (Rearrange_t (T := T) U K m os p sizes c))) -> In k (map fst c) \/ exists op ns n, k = (p, op, ns, n).
  Proof.
    intros Hr Hm H. unfold Rearrange_t in *. apply tbind_Ok in H as (u & H1 & H & -> & ->). destruct (tret_parts (check_kwargs [lit "self"; lit "pattern"] sizes) c) as (_ & Q1 & Q2). rewrite Q1, Q2 in *. cbn [app].
    apply tbind_Ok in H as (rs & H2 & H & -> & ->). destruct (all_dims_first os p (KStr s_rearrange) (map fst sizes) L R c rs Hr Hm H2) as [X1 X2]. rewrite X1. split; [cbn; apply app_nil_r|].
    intros k Hk. cbn in Hk. apply X2, in_app_or in Hk as [Hk|Hk]; [auto|]. right. apply in_map_iff in Hk as (n & <- & _). eauto.
  Qed.
  Lemma Rearrange_again os os' p sizes L R c M : reads U p L R -> 8 <= m -> told_result (Rearrange_t (T := T) U K m os p sizes c) = Ok M ->
    told_log (Rearrange_t (T := T) U K m os' p sizes (told_memo (Rearrange_t (T := T) U K m os p sizes c))) = said K (written_names L) /\
    told_result (Rearrange_t (T := T) U K m os' p sizes (told_memo (Rearrange_t (T := T) U K m os p sizes c))) = Ok M.
  Proof.
    intros Hr Hm H. unfold Rearrange_t in *. apply tbind_Ok in H as (u & H1 & H & _ & ->). destruct (tret_parts (check_kwargs [lit "self"; lit "pattern"] sizes) c) as (Q0 & Q1 & Q2). rewrite Q0 in H1. rewrite Q2 in *.
    apply tbind_Ok in H as (rs & H2 & H & _ & ->). cbn in H. injection H as <-. rewrite tmemo_tret. destruct (all_dims_again os os' p (KStr s_rearrange) (map fst sizes) L R c rs Hr Hm H2) as [X1 X2].
    split; [rewrite tlog_bind|rewrite tres_bind]; rewrite tres_tret, H1, tmemo_tret; cbn [bind].
    - rewrite tlog_tret, tlog_bind, X1, X2, tlog_tret. apply app_nil_r.
    - rewrite tres_bind, X2. reflexivity.
  Qed.
  Lemma Reduce_first os id p red sizes L R c M : reads U p L R -> (forall n, ~ In (p, red_key id red, map fst sizes, n) (map fst c)) ->
    told_result (Reduce_t (T := T) U K m os id p red sizes c) = Ok M ->
    told_log (Reduce_t (T := T) U K m os id p red sizes c) = layer_notices K (written_names L) (written_names R) (map fst sizes) (recipes_of L).
  Proof.
    intros Hr Hm H. unfold Reduce_t in *. apply tbind_Ok in H as (u & H1 & H & -> & _). destruct (tret_parts (check_kwargs [lit "self"; lit "pattern"; lit "reduction"] sizes) c) as (_ & Q1 & Q2). rewrite Q1, Q2 in *. cbn [app].
    apply tbind_Ok in H as (rs & H2 & H & -> & _). destruct (all_dims_first os p (red_key id red) (map fst sizes) L R c rs Hr Hm H2) as [X1 X2]. rewrite X1. cbn. apply app_nil_r.
  Qed.
  Lemma Reduce_again os os' id p red sizes L R c M : reads U p L R -> 8 <= m -> told_result (Reduce_t (T := T) U K m os id p red sizes c) = Ok M ->
    told_log (Reduce_t (T := T) U K m os' id p red sizes (told_memo (Reduce_t (T := T) U K m os id p red sizes c))) = said K (written_names L) /\
    told_result (Reduce_t (T := T) U K m os' id p red sizes (told_memo (Reduce_t (T := T) U K m os id p red sizes c))) = Ok M.
  Proof.
    intros Hr Hm H. unfold Reduce_t in *. apply tbind_Ok in H as (u & H1 & H & _ & ->). destruct (tret_parts (check_kwargs [lit "self"; lit "pattern"; lit "reduction"] sizes) c) as (Q0 & Q1 & Q2). rewrite Q0 in H1. rewrite Q2 in *.
    apply tbind_Ok in H as (rs & H2 & H & _ & ->). cbn in H. injection H as <-. rewrite tmemo_tret. destruct (all_dims_again os os' p (red_key id red) (map fst sizes) L R c rs Hr Hm H2) as [X1 X2].
    split; [rewrite tlog_bind|rewrite tres_bind]; rewrite tres_tret, H1, tmemo_tret; cbn [bind].
    - rewrite tlog_tret, tlog_bind, X1, X2, tlog_tret. apply app_nil_r.
    - rewrite tres_bind, X2. reflexivity.
  Qed.
End Layer.
