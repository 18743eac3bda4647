(** * Programs on nodes of a graph compute what they compute eagerly *)
From Coq Require Import Permutation.
From Verif Require Import Py Tensor SpecGrammar SpecPattern SpecForms Parsing Recipe Ops Backends Api Symbolic Packing SymPacking Einsum.
From Verif Require Import SymFacts SymFacts2 SymPackFacts SymPackFacts2 ParseFacts GraphProg SpecGraphProg.

Section Float.
  Context {E A : Type} (r : runtime A) (Hf : has_graphs (rt_framework r)) (e : E).
  (** nodes of a floating type *)
  Definition fcomputes (n : node E A) (t : tensor A) : Prop := computes e n t /\ n_float n = true.

  Lemma fcomputes_split ns ts : Forall2 fcomputes ns ts -> Forall2 (computes e) ns ts /\ Forall (fun n => n_float n = true) ns.
  Proof. intros H. induction H as [|n t ns ts [H1 H2] _ [IH1 IH2]]; split; constructor; assumption. Qed.
  Lemma fcomputes_join ns ts : Forall2 (computes e) ns ts -> Forall (fun n => n_float n = true) ns -> Forall2 fcomputes ns ts.
  Proof. intros H. induction H as [|n t ns ts H1 _ IH]; intros H2; inversion_clear H2; constructor; [split; assumption|auto]. Qed.

  Lemma float_reduce x y p s z1 z2 : input_sim fcomputes x y -> same_sizes e z1 z2 ->
    rsim fcomputes (graph_reduce_ r x p (RStr s) z1) (reduce r y p (RStr s) z2).
  Proof.
    intros Hx Hz. unfold graph_reduce_, reduce, rt_backend.
    pose proof (graph_sim e (rt_lib r) (rt_red r) (rt_isf r) (rt_num r) true (rt_framework r) Hf) as HB.
    assert (G := api_reduce_sim (@sym_ops E) (stands_for e) (sym_dim_sim e) _ _ _ HB (rt_unicode r) (rt_orders r) x y p (RStr s) (RStr s) z1 z2).
    eapply rsim_weaken; [|apply G].
    - intros n t [H1 H2]. split; [exact H1|apply H2; reflexivity].
    - destruct x as [n|ns], y as [t|ts]; cbn in Hx |- *; try contradiction.
      + destruct Hx as [H1 H2]. split; [exact H1|intros _; exact H2].
      + clear G. induction Hx as [|a b l m [H1 H2] _ IH]; constructor; [split; [exact H1|intros _; exact H2]|exact IH].
    - cbn. split; [reflexivity|]. intros _ n t [_ H2]. apply H2. reflexivity.
    - reflexivity.
    - exact Hz.
  Qed.

  (** the type of the result of pack and unpack *)
  Lemma pack_float (ns : list (node E A)) p n ps : Forall (fun n => n_float n = true) ns -> graph_pack r ns p = Ok (n, ps) -> n_float n = true.
  Proof.
    intros H Hp. unfold graph_pack in Hp.
    destruct (analyze_pattern (rt_unicode r) p) as [[[nb na] mn]|]; cbn [bind] in Hp; [|discriminate].
    destruct (of_option IndexError (nth_error ns 0)); cbn [bind] in Hp; [|discriminate].
    match type of Hp with bind ?m _ = _ => destruct m as [[l q]|] eqn:Em; cbn [bind] in Hp; [|discriminate] end.
    assert (G : Forall (fun n : node E A => n_float n = true) l).
    { assert (K : forall ns acc l q, Forall (fun n : node E A => n_float n = true) ns -> Forall (fun n : node E A => n_float n = true) (fst acc) ->
        foldM (fun '(reshaped, packed_shapes) tensor =>
               let shape := b_shape (the_graph_backend r) tensor in
               let* _ := raise_if (length shape <? mn) EinopsError in
               let axis_after_packed_axes := length shape - na in
               let packed_shapes := packed_shapes ++ [skipn nb (firstn axis_after_packed_axes shape)] in
               let* t := b_reshape (the_graph_backend r) tensor (firstn nb shape ++ [SInt (-1)%Z] ++ skipn axis_after_packed_axes shape) in
               Ok (reshaped ++ [t], packed_shapes)) ns acc = Ok (l, q) -> Forall (fun n : node E A => n_float n = true) l).
      { clear. induction ns as [|n ns IH]; intros [a b] l q Hns Ha; cbn [foldM]; [intros [= -> ->]; exact Ha|].
        inversion_clear Hns as [|? ? Hn Hns']. cbn zeta. destruct (raise_if _ _); cbn [bind]; [|discriminate].
        cbn [b_reshape the_graph_backend graph_backend]. unfold graph_reshape. cbn [bind]. apply IH; [exact Hns'|].
        cbn [fst]. apply Forall_app. split; [exact Ha|]. constructor; [exact Hn|constructor]. }
      apply (K ns ([], []) l q H); [constructor|exact Em]. }
    cbn [b_concat the_graph_backend graph_backend] in Hp. unfold graph_concat in Hp. destruct G as [|n0 l Hn0 _]; cbn [bind] in Hp; [discriminate|].
    injection Hp as <- _. exact Hn0.
  Qed.
  Lemma unpack_float (n : node E A) ps p ns : n_float n = true -> graph_unpack r n ps p = Ok ns -> Forall (fun n => n_float n = true) ns.
  Proof.
    intros H Hu. unfold graph_unpack in Hu.
    destruct (analyze_pattern (rt_unicode r) p) as [[[nb na] mn]|]; cbn [bind] in Hu; [|discriminate].
    destruct (raise_if _ _) in Hu; cbn [bind] in Hu; [|discriminate].
    destruct (graph_lengths r ps); cbn [bind] in Hu; [|discriminate].
    destruct (graph_unknowns r _); cbn [bind] in Hu; [|discriminate].
    destruct (raise_if _ _) in Hu; cbn [bind] in Hu; [|discriminate].
    destruct (list_get _ _) in Hu; cbn [bind] in Hu; [|discriminate].
    destruct (graph_positions _ _ _) as [sp|] in Hu; cbn [bind] in Hu; [|discriminate].
    match type of Hu with match ?m with _ => _ end = _ => destruct m as [ts|] eqn:Em; [|discriminate] end. injection Hu as <-.
    revert ts Em. induction (enumerate ps) as [|[i q] l IH]; intros ts Em; cbn [mapM] in Em; [injection Em as <-; constructor|].
    destruct (list_get sp i); cbn [bind] in Em; [|discriminate]. destruct (list_get sp (i + 1)); cbn [bind] in Em; [|discriminate].
    cbn [b_slice b_reshape the_graph_backend graph_backend] in Em. unfold graph_slice, graph_reshape in Em. cbn [bind] in Em.
    match type of Em with bind ?m _ = _ => destruct m as [us|] eqn:Eu; cbn [bind] in Em; [|discriminate] end. injection Em as <-.
    constructor; [exact H|apply IH; exact Eu].
  Qed.
End Float.

Section Program.
  Context {E A : Type} (r : runtime A) (Hr : runtime_ok r) (Hf : has_graphs (rt_framework r)) (e : E).
  Context (lib_einsum : pystr -> list (tensor A) -> result (tensor A)) (others : nat -> list (tensor A) -> result (tensor A)).
  Context (g_einsum : pystr -> list (node E A) -> result (node E A)) (g_others : nat -> list (node E A) -> result (node E A)).
  Context (He : forall s, same_in_graphs (g_einsum s) (lib_einsum s)) (Ho : forall k, same_in_graphs (g_others k) (others k)).
  Notation R := (fcomputes e).
  Notation CE := (eager_calls r lib_einsum others).
  Notation CG := (graph_calls r g_einsum g_others).

  Record alike (g : made_so_far (node E A) (sdim E)) (m : made_so_far (tensor A) Z) : Prop := mkAlike {
    al_tensors : Forall2 R (m_tensors g) (m_tensors m);
    al_dicts : Forall2 (same_sizes e) (m_dicts g) (m_dicts m);
    al_shapes : Forall2 (Forall2 (Forall2 (stands_for e))) (m_shapes g) (m_shapes m);
    al_nonneg : Forall (Forall (Forall (fun z => 0 <= z)%Z)) (m_shapes m)
  }.

  Lemma alike_tensors g m ns ts : alike g m -> Forall2 R ns ts -> alike (with_tensors g ns) (with_tensors m ts).
  Proof. intros [H1 H2 H3 H4] H. constructor; cbn; try assumption. apply Forall2_app; assumption. Qed.

  Lemma dict_get_sim s d1 d2 : same_sizes e d1 d2 -> rsim (stands_for e) (of_option KeyError (dict_get str_eqb s d1)) (of_option KeyError (dict_get str_eqb s d2)).
  Proof.
    intros H. induction H as [|[a x] [b z] d1 d2 [Hab Hxz] _ IH]; [apply rsim_err|]. cbn in Hab, Hxz. subst b. cbn [dict_get].
    destruct (str_eqb s a); [apply rsim_ok; exact Hxz|exact IH].
  Qed.
  Lemma length_sim g m l : alike g m -> rsim (stands_for e) (the_length CG g l) (the_length CE m l).
  Proof.
    intros [H1 H2 H3 H4]. destruct l as [z|x i|d s]; cbn [the_length].
    - apply rsim_ok. reflexivity.
    - apply (rsim_bind R); [apply rsim_list_get; exact H1|]. intros n t [Hn _]. apply rsim_list_get. apply computes_shape. exact Hn.
    - apply (rsim_bind (same_sizes e)); [apply rsim_list_get; exact H2|]. intros d1 d2 Hd. apply dict_get_sim. exact Hd.
  Qed.
  Lemma sizes_sim g m z : alike g m -> rsim (same_sizes e) (the_sizes CG g z) (the_sizes CE m z).
  Proof.
    intros H. unfold the_sizes. apply (rsim_mapM eq); [apply Forall2_same|]. intros a ? <-.
    apply (rsim_bind (stands_for e)); [apply length_sim; exact H|]. intros x y Hxy. apply rsim_ok. split; [reflexivity|exact Hxy].
  Qed.
  Lemma tensors_sim g m xs : alike g m -> rsim (Forall2 R) (the_tensors g xs) (the_tensors m xs).
  Proof. intros H. unfold the_tensors. apply (rsim_mapM eq); [apply Forall2_same|]. intros a ? <-. apply rsim_list_get. apply H. Qed.
  Lemma input_sim_ g m x : alike g m -> rsim (input_sim R) (the_input g x) (the_input m x).
  Proof.
    intros H. destruct x as [x|xs]; cbn [the_input].
    - apply (rsim_bind R); [apply rsim_list_get; apply H|]. intros n t Hnt. apply rsim_ok. exact Hnt.
    - apply (rsim_bind (Forall2 R)); [apply tensors_sim; exact H|]. intros ns ts Hnt. apply rsim_ok. exact Hnt.
  Qed.

  Lemma rearrange_sim x y p z1 z2 : input_sim R x y -> same_sizes e z1 z2 -> rsim R (do_rearrange CG x p z1) (do_rearrange CE y p z2).
  Proof. exact (float_reduce r Hf e x y p s_rearrange z1 z2). Qed.
  Lemma reduce_sim_ x y p s z1 z2 : input_sim R x y -> same_sizes e z1 z2 -> rsim R (do_reduce CG x p s z1) (do_reduce CE y p s z2).
  Proof. exact (float_reduce r Hf e x y p s z1 z2). Qed.
  Lemma repeat_sim x y p z1 z2 : input_sim R x y -> same_sizes e z1 z2 -> rsim R (do_repeat CG x p z1) (do_repeat CE y p z2).
  Proof. exact (float_reduce r Hf e x y p s_repeat z1 z2). Qed.
  Lemma einsum_sim ns ts p : Forall2 R ns ts ->
    rsim R (einsum_with (rt_unicode r) g_einsum (map inl ns ++ [inr p])) (einsum_with (rt_unicode r) lib_einsum (map inl ts ++ [inr p])).
  Proof.
    intros H. unfold einsum_with, einsum_given. rewrite !app_length, !map_length, (Forall2_len H), !last_last, !removelast_last.
    apply (rsim_bind eq); [apply rsim_same|]. intros _ _ _. apply (rsim_bind eq); [apply rsim_same|]. intros c ? <-.
    assert (K : forall T (l : list T) (X : result T), match map (@inl T pystr) l with inr _ :: _ => Err RuntimeError | _ => X end = X) by (intros T [|? ?] X; reflexivity).
    assert (M : forall T (l : list T), mapM as_tensor (map (@inl T pystr) l) = Ok l) by (intros T l; induction l as [|x l IH]; [reflexivity|]; cbn [map mapM as_tensor bind]; rewrite IH; reflexivity).
    rewrite (M _ ns), (M _ ts). cbn [bind]. rewrite !K.
    intros t Ht. destruct (fcomputes_split e ns ts H) as [H1 H2]. destruct (He c e ns ts t H1 H2 Ht) as (n & Hn & H3 & H4). exists n. split; [exact Hn|split; assumption].
  Qed.
  Lemma pack_sim_ ns ts p : Forall2 R ns ts ->
    rsim (fun a b => R (fst a) (fst b) /\ Forall2 (Forall2 (stands_for e)) (snd a) (snd b) /\ Forall (Forall (fun z => 0 <= z)%Z) (snd b)) (graph_pack r ns p) (pack r ts p).
  Proof.
    intros H [t ps] Ht. destruct (fcomputes_split e ns ts H) as [H1 H2]. destruct (graph_pack_agrees r Hf e ns ts p t ps H1 Ht) as (n & ps1 & Hn & H3 & H4).
    exists (n, ps1). split; [exact Hn|]. cbn [fst snd]. split; [split; [exact H3|apply (pack_float r ns p n ps1 H2 Hn)]|]. split; [exact H4|]. apply (packed_nonneg r ts p t ps Ht).
  Qed.
  Lemma unpack_sim_ n t ps1 ps p : R n t -> Forall2 (Forall2 (stands_for e)) ps1 ps -> Forall (Forall (comparable (rt_framework r) e)) ps1 ->
    rsim (Forall2 R) (graph_unpack r n ps1 p) (unpack r t ps p).
  Proof.
    intros [H1 H2] Hp Hc ts Ht. destruct (graph_unpack_agrees r Hf e n t ps1 ps p ts H1 Hp Hc Ht) as (ns & Hn & H3). exists ns. split; [exact Hn|].
    apply fcomputes_join; [exact H3|]. apply (unpack_float r n ps1 p ns H2 Hn).
  Qed.
  Lemma nonneg_comparable ps1 ps : rt_framework r = Pytensor -> Forall2 (Forall2 (stands_for e)) ps1 ps -> Forall (Forall (fun z => 0 <= z)%Z) ps ->
    Forall (Forall (comparable (rt_framework r) e)) ps1.
  Proof.
    intros Hp H. induction H as [|p1 p2 ps1 ps H _ IH]; intros Hn; [constructor|]. inversion_clear Hn as [|? ? Hn1 Hn2]. constructor; [|apply IH; exact Hn2].
    clear - H Hn1 Hp. induction H as [|a b l m Hab _ IH]; [constructor|]. inversion_clear Hn1 as [|? ? Hb Hm]. constructor; [|apply IH; exact Hm].
    destruct a as [x|v|]; cbn; [exact I| |discriminate]. split; [exact Hp|]. intros X. unfold stands_for in *. rewrite Hab in X. injection X as ->. lia.
  Qed.
  Lemma parse_sim n t p : computes e n t -> buildable (rt_unicode r) (rt_framework r) (On_parse_shape 0 p) ->
    rsim (same_sizes e) (graph_parse_shape r n p) (parse_shape (rt_unicode r) (int_shape t) p).
  Proof.
    intros H (L & HL & Hu) d Hd. apply (graph_parse_agrees r e n t p L d Hr H HL); [|exact Hd].
    rewrite parse_shape_cells in Hd. destruct (cells_for (rt_unicode r) (length (int_shape t)) p) as [cells|] eqn:Ec; [|discriminate].
    destruct (cells_opened (rt_unicode r) (ro_unicode _ Hr) p L _ cells HL Ec) as [_ Hlen].
    pose proof (computes_shape e (rt_framework r) n t H) as Hs. pose proof (Forall2_len Hs) as Hl.
    assert (El : length (n_static n) = length (int_shape t)) by (rewrite (static_len e n t H); unfold int_shape; rewrite map_length; reflexivity).
    rewrite El. rewrite <- Hlen in Hl at 1.
    assert (Ha : Forall unasked (opened L (length (int_shape t)))).
    { unfold opened. apply Forall_flat_map. apply (Forall_impl _ (P := fun i => unasked i \/ i = Atom ADots)); [|exact Hu].
      intros i [Hi| ->].
      - destruct i as [[| |]|]; try (constructor; [exact Hi|constructor]). destruct Hi as [s Hi]. discriminate Hi.
      - apply Forall_forall. intros x Hx. apply repeat_spec in Hx as ->. exists [c_under]. reflexivity. }
    revert Hl Ha. generalize (opened L (length (int_shape t))) (node_shape (rt_framework r) n). clear.
    intros l. induction l as [|i l IH]; intros [|d ds] Hl Ha; try discriminate; [constructor|]. inversion_clear Ha. constructor; [left; assumption|].
    apply IH; [cbn in Hl; congruence|assumption].
  Qed.

  Lemma call_sim g m c : buildable (rt_unicode r) (rt_framework r) c -> alike g m -> rsim alike (run_call CG g c) (run_call CE m c).
  Proof.
    intros Hb H. destruct c as [x p z|x p op z|x p z|xs p|xs p|x k p|x ps p|x p|f xs]; cbn [run_call].
    1-3: apply (rsim_bind (input_sim R)); [apply input_sim_; exact H|]; intros x1 x2 Hx;
         apply (rsim_bind (same_sizes e)); [apply sizes_sim; exact H|]; intros z1 z2 Hz;
         apply (rsim_bind R); [first [apply rearrange_sim|apply reduce_sim_|apply repeat_sim]; assumption|]; intros n t Hnt; apply rsim_ok; apply alike_tensors; [exact H|repeat constructor; apply Hnt].
    - apply (rsim_bind (Forall2 R)); [apply tensors_sim; exact H|]. intros ns ts Hn.
      apply (rsim_bind R); [apply einsum_sim; exact Hn|]. intros n t Hnt. apply rsim_ok, alike_tensors; [exact H|constructor; [exact Hnt|constructor]].
    - apply (rsim_bind (Forall2 R)); [apply tensors_sim; exact H|]. intros ns ts Hn.
      eapply rsim_bind; [apply pack_sim_; exact Hn|]. intros [n ps1] [t ps] (Hnt & Hps & Hnn). cbn [fst snd] in *. apply rsim_ok.
      destruct H as [H1 H2 H3 H4]. constructor; cbn; try assumption.
      + apply Forall2_app; [assumption|constructor; [exact Hnt|constructor]].
      + apply Forall2_app; [assumption|constructor; [exact Hps|constructor]].
      + apply Forall_app. split; [assumption|constructor; [exact Hnn|constructor]].
    - apply (rsim_bind R); [apply rsim_list_get; apply H|]. intros n t Hnt.
      apply (rsim_bind (fun ps1 ps => Forall2 (Forall2 (stands_for e)) ps1 ps /\ Forall (Forall (fun z => 0 <= z)%Z) ps)).
      + apply rsim_list_get. destruct H as [_ _ H3 H4]. revert H4. induction H3 as [|a b l1 l2 Hab _ IH]; intros H4; [constructor|].
        inversion_clear H4. constructor; [split; assumption|auto].
      + intros ps1 ps [Hp Hn]. apply (rsim_bind (Forall2 R)).
        * apply unpack_sim_; [exact Hnt|exact Hp|]. apply (nonneg_comparable ps1 ps Hb Hp Hn).
        * intros ns ts Hns. apply rsim_ok, alike_tensors; assumption.
    - apply (rsim_bind R); [apply rsim_list_get; apply H|]. intros n t Hnt.
      apply (rsim_bind (Forall2 R)).
      + cbn [do_unpack do_int eager_calls graph_calls]. rewrite (map_ext (map (fun z : Z => z)) (fun l => l) (@map_id Z)), map_id.
        apply unpack_sim_; [exact Hnt| |].
        * clear. induction ps as [|p ps IH]; [constructor|]. constructor; [|exact IH]. induction p; constructor; [reflexivity|assumption].
        * clear. induction ps as [|p ps IH]; [constructor|]. constructor; [|exact IH]. induction p; constructor; [exact I|assumption].
      + intros ns ts Hns. apply rsim_ok, alike_tensors; assumption.
    - apply (rsim_bind R); [apply rsim_list_get; apply H|]. intros n t [Hnt _].
      apply (rsim_bind (same_sizes e)); [apply parse_sim; [exact Hnt|exact Hb]|]. intros d1 d2 Hd. apply rsim_ok.
      destruct H as [H1 H2 H3 H4]. constructor; cbn; try assumption. apply Forall2_app; [assumption|constructor; [exact Hd|constructor]].
    - apply (rsim_bind (Forall2 R)); [apply tensors_sim; exact H|]. intros ns ts Hn.
      apply (rsim_bind R).
      + intros t Ht. destruct (fcomputes_split e ns ts Hn) as [H1 H2]. destruct (Ho f e ns ts t H1 H2 Ht) as (n & Hn' & H3 & H4). exists n. split; [exact Hn'|split; assumption].
      + intros n t Hnt. apply rsim_ok, alike_tensors; [exact H|constructor; [exact Hnt|constructor]].
  Qed.

  Lemma calls_sim p ns ts : Forall (buildable (rt_unicode r) (rt_framework r)) p -> Forall2 R ns ts ->
    rsim alike (run_calls CG p ns) (run_calls CE p ts).
  Proof.
    intros Hp H. unfold run_calls.
    assert (G : forall p g m, Forall (buildable (rt_unicode r) (rt_framework r)) p -> alike g m -> rsim alike (foldM (run_call CG) p g) (foldM (run_call CE) p m)).
    { clear p Hp. induction p as [|c p IH]; intros g m Hp Ha; cbn [foldM]; [apply rsim_ok; exact Ha|]. inversion_clear Hp.
      apply (rsim_bind alike); [apply call_sim; assumption|]. intros g1 m1 Hgm. apply IH; assumption. }
    apply G; [exact Hp|]. constructor; cbn; try constructor. exact H.
  Qed.
End Program.

(** ** Symbols *)
Lemma has_shape_iff {A} s (t : tensor A) : has_shape s t = true <-> of_shape s t.
Proof.
  unfold has_shape, of_shape, int_shape. rewrite <- (map_length Z.of_nat (shp t)). generalize (map Z.of_nat (shp t)). clear.
  induction s as [|a s IH]; intros [|d ds]; cbn.
  - split; [constructor|reflexivity].
  - split; [discriminate|intros H; inversion H].
  - split; [discriminate|intros H; inversion H].
  - split.
    + intros H. apply andb_prop in H as [Hl H]. apply andb_prop in H as [Ha H]. constructor; [destruct a as [z|]; [right; apply Z.eqb_eq in Ha; congruence|left; reflexivity]|].
      apply IH. rewrite Hl, H. reflexivity.
    + intros H. inversion_clear H as [|? ? ? ? Ha H']. apply IH in H'. apply andb_prop in H' as [Hl H']. rewrite Hl, H'.
      destruct Ha as [-> | ->]; [reflexivity|]. rewrite Z.eqb_refl. reflexivity.
Qed.

Definition dict_of {A} (pairs : list (nat * tensor A)) : values A := fold_left (fun d '(k, v) => dict_set Nat.eqb k v d) pairs [].
Lemma dict_of_get {A} (pairs : list (nat * tensor A)) k v : NoDup (map fst pairs) -> In (k, v) pairs -> dict_get Nat.eqb k (dict_of pairs) = Some v.
Proof.
  intros Hn Hi. unfold dict_of.
  assert (K : forall (d : values A) k v j, dict_get Nat.eqb j (dict_set Nat.eqb k v d) = if j =? k then Some v else dict_get Nat.eqb j d).
  { clear. intros d k v j. induction d as [|[a w] d IH]; cbn [dict_set dict_get]; [reflexivity|].
    destruct (k =? a) eqn:E1; cbn [dict_get].
    - apply Nat.eqb_eq in E1 as <-. destruct (j =? k); reflexivity.
    - rewrite IH. destruct (j =? a) eqn:E2; [|reflexivity]. apply Nat.eqb_eq in E2 as <-. rewrite Nat.eqb_sym, E1. reflexivity. }
  assert (P : forall pairs (d : values A), ~ In k (map fst pairs) -> dict_get Nat.eqb k (fold_left (fun d '(k, v) => dict_set Nat.eqb k v d) pairs d) = dict_get Nat.eqb k d).
  { clear - K. induction pairs as [|[a w] l IH]; intros d H; [reflexivity|]. cbn [fold_left]. rewrite IH by (intros X; apply H; right; exact X).
    rewrite K. destruct (k =? a) eqn:E1; [|reflexivity]. apply Nat.eqb_eq in E1 as ->. destruct H. left. reflexivity. }
  generalize (@nil (nat * tensor A)) as d. induction pairs as [|[a w] l IH]; intros d; [destruct Hi|]. cbn [fold_left].
  cbn [map fst] in Hn. apply NoDup_cons_iff in Hn as [Ha Hn]. destruct Hi as [[= -> ->]|Hi]; [|apply IH; assumption].
  rewrite P by exact Ha. rewrite K, Nat.eqb_refl. reflexivity.
Qed.
Lemma symbols_compute {A} shapes (ts : list (tensor A)) pairs : Forall2 of_shape shapes ts -> Permutation pairs (combine (seq 0 (length ts)) ts) ->
  Forall2 (fcomputes (dict_of pairs)) (create_symbols shapes) ts.
Proof.
  intros H Hp.
  assert (Hn : NoDup (map fst pairs)).
  { eapply Permutation_NoDup; [apply Permutation_sym, Permutation_map, Hp|].
    assert (X : forall (l : list (tensor A)) k, map fst (combine (seq k (length l)) l) = seq k (length l)) by (induction l; intros k; cbn; [reflexivity|f_equal; auto]).
    rewrite X. apply seq_NoDup. }
  assert (G : forall k v, In (k, v) (combine (seq 0 (length ts)) ts) -> dict_get Nat.eqb k (dict_of pairs) = Some v).
  { intros k v Hi. apply dict_of_get; [exact Hn|]. eapply Permutation_in; [apply Permutation_sym, Hp|exact Hi]. }
  clear Hp Hn. unfold create_symbols, enumerate. revert G. generalize 0.
  induction H as [|s t shapes ts Hs _ IH]; intros k G; [constructor|]. cbn [enumerate_from map]. cbn [length seq combine] in G. constructor.
  - split; [|reflexivity]. split.
    + cbn. rewrite (G k t) by (left; reflexivity). cbn. apply has_shape_iff in Hs. rewrite Hs. reflexivity.
    + cbn [n_static create_symbol]. clear - Hs. unfold of_shape in Hs. induction Hs as [|a d l m Ha _ IH]; constructor; [|exact IH].
      intros z ->. destruct Ha as [Ha|Ha]; congruence.
  - apply IH. intros j v Hi. apply G. right. exact Hi.
Qed.

Lemma symbol_value {A} k s (pairs : list (nat * tensor A)) t : NoDup (map fst pairs) ->
  (eval_symbol (create_symbol k s) pairs = Ok t <-> In (k, t) pairs /\ of_shape s t).
Proof.
  intros Hn. change (eval_symbol (create_symbol k s) pairs) with (n_run (create_symbol k s) (dict_of pairs)). cbn. split.
  - destruct (in_dec Nat.eq_dec k (map fst pairs)) as [Hi|Hi].
    + apply in_map_iff in Hi as ([a v] & Ea & Hi). cbn in Ea. subst a. rewrite (dict_of_get pairs k v Hn Hi). cbn.
      destruct (has_shape s v) eqn:Es; [|discriminate]. intros [= <-]. split; [exact Hi|apply has_shape_iff; exact Es].
    + assert (P : dict_get Nat.eqb k (dict_of pairs) = None).
      { unfold dict_of. assert (N : forall pairs (d : values A), ~ In k (map fst pairs) -> dict_get Nat.eqb k d = None -> dict_get Nat.eqb k (fold_left (fun d '(k, v) => dict_set Nat.eqb k v d) pairs d) = None).
        { clear. induction pairs as [|[a w] l IH]; intros d H Hd; [exact Hd|]. cbn [fold_left]. apply IH; [intros X; apply H; right; exact X|].
          assert (Ha : k <> a) by (intros ->; apply H; left; reflexivity). clear - Ha Hd. induction d as [|[b w'] d IH]; cbn [dict_set dict_get] in *.
          - destruct (k =? a) eqn:E1; [apply Nat.eqb_eq in E1; contradiction|reflexivity].
          - destruct (k =? b) eqn:E2; [discriminate|]. destruct (a =? b) eqn:E3; cbn [dict_get]; rewrite E2; [exact Hd|apply IH; exact Hd]. }
        apply N; [exact Hi|reflexivity]. }
      rewrite P. discriminate.
  - intros [Hi Hs]. rewrite (dict_of_get pairs k t Hn Hi). cbn. apply has_shape_iff in Hs. rewrite Hs. reflexivity.
Qed.

Lemma graph_program {A} (r : runtime A) lib_einsum others g_einsum g_others shapes p :
  runtime_ok r -> has_graphs (rt_framework r) -> (forall s, same_in_graphs (g_einsum s) (lib_einsum s)) -> (forall k, same_in_graphs (g_others k) (others k)) ->
  Forall (buildable (rt_unicode r) (rt_framework r)) p ->
  (exists g, run_calls (graph_calls r g_einsum g_others) p (create_symbols shapes) = Ok g /\
     forall ts pairs m, Forall2 of_shape shapes ts -> Permutation pairs (combine (seq 0 (length ts)) ts) ->
       run_calls (eager_calls r lib_einsum others) p ts = Ok m ->
       Forall2 (fun n t => eval_symbol n pairs = Ok t) (m_tensors g) (m_tensors m)) \/
  (forall ts, Forall2 of_shape shapes ts -> exists x, run_calls (eager_calls r lib_einsum others) p ts = Err x).
Proof.
  intros Hr Hf He Ho Hp. destruct (run_calls (graph_calls r g_einsum g_others) p (create_symbols shapes)) as [g|x] eqn:Eg.
  - left. exists g. split; [reflexivity|]. intros ts pairs m Hs Hpp Hm.
    destruct (calls_sim r Hr Hf (dict_of pairs) lib_einsum others g_einsum g_others He Ho p _ ts Hp (symbols_compute shapes ts pairs Hs Hpp) m Hm) as (g' & Eg' & Ha).
    rewrite Eg in Eg'. injection Eg' as <-. destruct Ha as [H1 _ _ _]. clear - H1. induction H1 as [|n t ns ts [[Hr _] _] _ IH]; constructor; [exact Hr|exact IH].
  - right. intros ts Hs. destruct (run_calls (eager_calls r lib_einsum others) p ts) as [m|y] eqn:Em; [|eauto].
    destruct (calls_sim r Hr Hf (dict_of (combine (seq 0 (length ts)) ts)) lib_einsum others g_einsum g_others He Ho p _ ts Hp
      (symbols_compute shapes ts _ Hs (Permutation_refl _)) m Em) as (g' & Eg' & _). congruence.
Qed.
