(** * The round trip on graphs; parse_shape on graphs *)
From Verif Require Import Py Tensor Parsing Recipe Ops Backends Api ListFacts TensorFacts SymFacts Symbolic SymFacts2 Packing SymPacking SymPackFacts.
From Verif Require Import SpecGrammar SpecPattern SpecForms Compile ParseFacts ParseFacts3 ParseLaws PackFacts5.

Lemma packed_nonneg : forall {A} (r : runtime A) ts p t ps, pack r ts p = Ok (t, ps) -> Forall (Forall (fun z => 0 <= z)%Z) ps.
Proof.
  intros A r ts p t ps H. unfold pack, pack_with, pack_given in H.
  destruct (analyze_pattern (rt_unicode r) p) as [[[nb na] mn]|]; cbn [bind] in H; [|discriminate].
  destruct (of_option IndexError (nth_error ts 0)) as [?|]; cbn [bind] in H; [|discriminate].
  match type of H with bind (foldM ?f ts _) _ = _ => assert (G : forall l c c', Forall (Forall (fun z => 0 <= z)%Z) (snd c) -> foldM f l c = Ok c' ->
    Forall (Forall (fun z => 0 <= z)%Z) (snd c')) end.
  { intros l. induction l as [|x l IH]; intros [a0 q] c' Hc E; cbn [foldM] in E; [injection E as <-; exact Hc|].
    destruct (raise_if _ _); cbn [bind] in E; [|discriminate]. destruct (b_reshape (rt_backend r) x _) as [x'|]; cbn [bind] in E; [|discriminate].
    eapply IH; [|exact E]. cbn [snd]. apply Forall_app. split; [exact Hc|]. constructor; [|constructor].
    assert (Hs : Forall (fun z => 0 <= z)%Z (b_shape (rt_backend r) x)).
    { replace (b_shape (rt_backend r) x) with (int_shape x) by (unfold rt_backend; destruct (rt_framework r); reflexivity).
      unfold int_shape. apply Forall_forall. intros z Hz. apply in_map_iff in Hz as [n [<- _]]. lia. }
    rewrite Forall_forall in Hs |- *. intros z Hz. apply Hs.
    match type of Hz with In _ (skipn ?u (firstn ?v ?w)) => rewrite <- (firstn_skipn v w); apply in_or_app; left; rewrite <- (firstn_skipn u (firstn v w)); apply in_or_app; right; exact Hz end. }
  match type of H with bind ?m _ = _ => destruct m as [c|] eqn:Em; cbn [bind] in H; [|discriminate] end.
  apply G in Em; [|constructor]. destruct c as [a0 q]. destruct (b_concat (rt_backend r) a0 nb); cbn [bind] in H; [|discriminate].
  injection H as _ <-. exact Em.
Qed.

Lemma graph_round_trip : forall {E A} (r : runtime A) (e : E) ns ts p t ps,
  runtime_ok r -> has_graphs (rt_framework r) -> Forall wf ts -> Forall2 (@computes E A e) ns ts -> pack r ts p = Ok (t, ps) ->
  exists n ps1, graph_pack r ns p = Ok (n, ps1) /\ computes e n t /\ Forall2 (Forall2 (stands_for e)) ps1 ps /\
    (rt_framework r = Pytensor \/ Forall (Forall is_int) ps1 ->
     exists ns', graph_unpack r n ps1 p = Ok ns' /\ Forall2 (computes e) ns' ts).
Proof.
  intros E A r e ns ts p t ps Hr Hf Hw H Hp. destruct (graph_pack_agrees r Hf e ns ts p t ps H Hp) as (n & ps1 & E1 & H1 & H2).
  exists n, ps1. split; [exact E1|]. split; [exact H1|]. split; [exact H2|]. intros Hc.
  apply (graph_unpack_agrees r Hf e n t ps1 ps p ts H1 H2); [|apply pack_unpack; assumption].
  pose proof (packed_nonneg r ts p t ps Hp) as Hn. clear - H2 Hc Hn.
  induction H2 as [|p1 p2 ps1 ps Hp _ IH]; [constructor|]. inversion_clear Hn as [|? ? Hn1 Hn2]. constructor.
  2:{ apply IH; [|exact Hn2]. destruct Hc as [Hc|Hc]; [left; exact Hc|right; inversion_clear Hc; assumption]. }
  assert (Hc' : rt_framework r = Pytensor \/ Forall is_int p1) by (destruct Hc as [Hc|Hc]; [left; exact Hc|right; inversion_clear Hc; assumption]).
  clear - Hp Hc' Hn1. induction Hp as [|a b l m Hab _ IH]; [constructor|]. inversion_clear Hn1 as [|? ? Hb Hm]. constructor.
  - destruct a as [x|v|]; cbn.
    + exact I.
    + split; [destruct Hc' as [Hc|Hc]; [exact Hc|inversion_clear Hc as [|? ? X _]; destruct X]|].
      intros X. unfold stands_for in *. rewrite Hab in X. injection X as ->. lia.
    + discriminate.
  - apply IH; [exact Hm|destruct Hc' as [Hc|Hc]; [left; exact Hc|right; inversion_clear Hc; assumption]].
Qed.

(** ** parse_shape: what comes before the dimensions are looked at *)
Definition cells_for (U : unicode) (rank : nat) (pattern : pystr) : result (list comp) :=
  let* (exp, _) := parse_expression U true false 0 pattern in
  let* _ := raise_if (has_composed_axes exp) RuntimeError in
  let ncomp := length (p_composition exp) in
  let* _ := if rank =? ncomp then Ok tt
            else if p_has_ellipsis exp
                 then raise_if (rank <? ncomp - 1) RuntimeError
                 else Err RuntimeError in
  if p_has_ellipsis exp
  then let* k := of_option ValueError (find_cell (p_composition exp)) in
       Ok (firstn k (p_composition exp)
             ++ repeat underscore (rank + 1 - ncomp)
             ++ skipn (S k) (p_composition exp))
  else Ok (p_composition exp).

Lemma parse_shape_cells U shape p : parse_shape U shape p =
  let* composition := cells_for U (length shape) p in
  foldM (fun result '(c, axis_length) =>
           match cell_axes c with
           | [] => if (axis_length =? 1)%Z then Ok result else Err RuntimeError
           | [AxName s] => if str_eqb s [c_under] then Ok result
                           else Ok (dict_set str_eqb s axis_length result)
           | [AxAnon _ v] => if (v =? axis_length)%Z then Ok result else Err RuntimeError
           | _ => Err ValueError
           end) (combine composition shape) [].
Proof.
  unfold parse_shape, cells_for. destruct (parse_expression U true false 0 p) as [[exp k]|]; [|reflexivity]. cbn [bind].
  destruct (raise_if (has_composed_axes exp) RuntimeError); [|reflexivity]. cbn [bind].
  destruct (length shape =? length (p_composition exp)), (p_has_ellipsis exp); cbn [bind]; try reflexivity.
  destruct (raise_if (length shape <? length (p_composition exp) - 1) RuntimeError); reflexivity.
Qed.
Lemma graph_parse_cells {E A} (r : runtime A) (n : node E A) p : graph_parse_shape r n p =
  let shape := node_shape (rt_framework r) n in
  let* composition := cells_for (rt_unicode r) (length shape) p in
  foldM (fun result '(c, axis_length) =>
             match cell_axes c with
             | [] => let* b := sym_eqb r axis_length 1 in if b then Ok result else Err RuntimeError
             | [AxName s] => if str_eqb s [c_under] then Ok result
                             else Ok (dict_set str_eqb s axis_length result)
             | [AxAnon _ v] => let* b := sym_eqb r axis_length v in if b then Ok result else Err RuntimeError
             | _ => Err ValueError
             end) (combine composition shape) [].
Proof.
  unfold graph_parse_shape, cells_for. cbn [b_shape the_graph_backend graph_backend]. set (shape := node_shape (rt_framework r) n). clearbody shape.
  cbn zeta. destruct (parse_expression (rt_unicode r) true false 0 p) as [[exp k]|]; [|reflexivity]. cbn [bind].
  destruct (raise_if (has_composed_axes exp) RuntimeError); [|reflexivity]. cbn [bind].
  destruct (length shape =? length (p_composition exp)), (p_has_ellipsis exp); cbn [bind]; try reflexivity.
  destruct (raise_if (length shape <? length (p_composition exp) - 1) RuntimeError); reflexivity.
Qed.

Lemma cells_opened U (HU : unicode_ok U) p L rank cells : written_as U true false p L -> cells_for U rank p = Ok cells ->
  cells = comps 0 (opened L rank) /\ length (opened L rank) = rank.
Proof.
  intros HL. unfold cells_for.
  assert (Ep : parse_expression U true false 0 p = Ok (compile 0 L)) by (apply (parse_expression_iff U HU); eauto).
  rewrite Ep. cbn [bind compile]. cbn [p_composition p_has_ellipsis].
  destruct (raise_if _ RuntimeError) as [[]|]; cbn [bind]; [|discriminate]. rewrite comps_length.
  destruct (has_dots L) eqn:Hd.
  - intros H.
    assert (Hr : length L <= rank + 1).
    { destruct (rank =? length L) eqn:El; [apply Nat.eqb_eq in El; lia|]. destruct (rank <? length L - 1) eqn:Elt; cbn in H; [discriminate|].
      apply Nat.ltb_ge in Elt. lia. }
    assert (H' : (let* k := of_option ValueError (find_cell (comps 0 L)) in
      Ok (firstn k (comps 0 L) ++ repeat underscore (rank + 1 - length L) ++ skipn (S k) (comps 0 L))) = Ok cells).
    { destruct (rank =? length L); [exact H|]. destruct (rank <? length L - 1); cbn in H; [discriminate|exact H]. }
    clear H. destruct (find_cell_comps 0 L) as [Hf|[a [i [b [-> [Hi Hf]]]]]]; rewrite Hf in H'; cbn [of_option bind] in H'; [discriminate|].
    assert (X : forall u v : list comp, Ok u = Ok v -> v = u) by congruence. apply X in H'. subst cells. destruct (once_split U p _ a i b HL eq_refl Hi) as [K1 K2].
    assert (Hi' : i = ADots).
    { assert (Hin := proj1 (has_dots_In _) Hd). destruct i as [s|z|]; [|discriminate|reflexivity]. exfalso.
      unfold atoms in Hin. rewrite flat_map_app in Hin. apply in_app_or in Hin as [H|H]; [exact (no_key_dots a K1 H)|].
      cbn in H. destruct H as [H|H]; [discriminate|exact (no_key_dots b K2 H)]. }
    subst i. set (m := rank + 1 - length (a ++ Atom ADots :: b)).
    assert (Eo : opened (a ++ Atom ADots :: b) rank = a ++ repeat skip m ++ b).
    { unfold opened. rewrite flat_map_app. cbn [flat_map]. rewrite !opened_id by (apply no_dots_item, no_key_dots; assumption). reflexivity. }
    rewrite Eo. split.
    + rewrite !comps_app. rewrite <- (comps_length a 0) at 1. rewrite firstn_app, firstn_all, Nat.sub_diag. cbn [firstn].
      rewrite app_nil_r. f_equal. rewrite comps_skips. f_equal.
      rewrite skipn_app, skipn_all2 by (rewrite comps_length; lia). rewrite comps_length.
      replace (S (length a) - length a) with 1 by lia. cbn [app comps skipn]. f_equal.
      assert (Z : nbig (atoms (repeat skip m)) = 0) by (clear; induction m; [reflexivity|exact IHm]). rewrite Z. cbn. lia.
    + rewrite !app_length, repeat_length. unfold m. rewrite app_length in *. cbn [length] in *. lia.
  - assert (Hn : ~ In ADots (atoms L)) by (rewrite <- has_dots_In; congruence).
    assert (Eo : opened L rank = L) by (apply opened_id, no_dots_item; auto). rewrite Eo.
    destruct (rank =? length L) eqn:El; cbn [bind]; [|discriminate]. intros [= <-]. apply Nat.eqb_eq in El. auto.
Qed.

Lemma dict_set_sim {E} (e : E) s d z d1 d2 : stands_for e d z -> same_sizes e d1 d2 ->
  same_sizes e (dict_set str_eqb s d d1) (dict_set str_eqb s z d2).
Proof.
  intros Hd H. unfold same_sizes in *. induction H as [|[s1 a] [s2 b] d1 d2 [Hs Hab] H IH]; cbn [dict_set].
  - constructor; [split; [reflexivity|exact Hd]|constructor].
  - cbn [fst snd] in Hs, Hab. subst s2. destruct (str_eqb s s1); constructor; auto.
Qed.

Lemma graph_parse_agrees {E A} (r : runtime A) (e : E) (n : node E A) t p L d :
  runtime_ok r -> computes e n t -> written_as (rt_unicode r) true false p L ->
  Forall2 (fun i d => unasked i \/ is_int d) (opened L (length (n_static n))) (node_shape (rt_framework r) n) ->
  parse_shape (rt_unicode r) (int_shape t) p = Ok d ->
  exists d1, graph_parse_shape r n p = Ok d1 /\ same_sizes e d1 d.
Proof.
  intros Hr Hnt HL Hi. revert d.
  change (rsim (same_sizes e) (graph_parse_shape r n p) (parse_shape (rt_unicode r) (int_shape t) p)).
  rewrite parse_shape_cells, graph_parse_cells. cbn zeta.
  pose proof (computes_shape e (rt_framework r) n t Hnt) as Hs. rewrite (Forall2_len Hs).
  assert (El : length (n_static n) = length (int_shape t)) by (rewrite (static_len e n t Hnt); unfold int_shape; rewrite map_length; reflexivity).
  rewrite El in Hi. clear El.
  destruct (cells_for (rt_unicode r) (length (int_shape t)) p) as [cells|] eqn:Ec; [|apply rsim_err]. cbn [bind].
  destruct (cells_opened (rt_unicode r) (ro_unicode _ Hr) p L _ cells HL Ec) as [-> Hlen].
  assert (Hp : Forall2 (fun a b => fst a = fst b /\ stands_for e (snd a) (snd b) /\ ((exists s, cell_axes (fst a) = [AxName s]) \/ is_int (snd a)))
    (combine (comps 0 (opened L (length (int_shape t)))) (node_shape (rt_framework r) n)) (combine (comps 0 (opened L (length (int_shape t)))) (int_shape t))).
  { set (l := opened L (length (int_shape t))) in *. clearbody l. revert Hi Hs. generalize (node_shape (rt_framework r) n) (int_shape t) 0. clear.
    intros s1 s2 k Hi Hs. revert k s2 Hs. induction Hi as [|i d l s1 Hid _ IH]; intros k s2 Hs; [constructor|].
    inversion_clear Hs as [|? z ? s2' Hdz Hs2]. cbn [comps combine]. constructor; [|apply IH; exact Hs2]. cbn [fst snd]. split; [reflexivity|]. split; [exact Hdz|].
    destruct Hid as [[s Hu]|Hid]; [left|right; exact Hid]. unfold cell_axes. rewrite item_axes, Hu. cbn. eauto. }
  apply (rsim_foldM _ (same_sizes e) _ _ _ _ Hp); [|constructor].
  intros d1 d2 [c x] [c' z] Hd (Hc & Hx & Ha). cbn [fst snd] in Hc, Hx, Ha. subst c'.
  destruct Ha as [[s Ha]|Ha].
  - rewrite Ha. destruct (str_eqb s [c_under]); apply rsim_ok; [exact Hd|apply dict_set_sim; assumption].
  - destruct x as [y|v|]; try destruct Ha. injection Hx as ->. cbn [sym_eqb bind].
    destruct (cell_axes c) as [|[s|k v] [|? ?]]; try apply rsim_err.
    + destruct (z =? 1)%Z; [apply rsim_ok; exact Hd|apply rsim_err].
    + destruct (str_eqb s [c_under]); apply rsim_ok; [exact Hd|apply dict_set_sim; [reflexivity|assumption]].
    + rewrite (Z.eqb_sym z v). destruct (v =? z)%Z; [apply rsim_ok; exact Hd|apply rsim_err].
Qed.
