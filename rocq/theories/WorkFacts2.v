(** * How often the cached functions are run *)
From Verif Require Import Py ListFacts Tensor SpecGrammar SpecPattern SpecOps Parsing Recipe Ops Backends Api Packing Einsum ParseFacts LayerFacts Cache CacheFacts Work SpecWork WorkFacts.

(** ** keys *)
Lemma list_eqb_same {A} (eqb : A -> A -> bool) : (forall a, eqb a a = true) -> forall l, list_eqb eqb l l = true.
Proof. intros H. induction l as [|x l IH]; [reflexivity|]. cbn. rewrite H, IH. reflexivity. Qed.
Lemma str_eqb_same s : str_eqb s s = true.
Proof. apply str_eqb_eq. reflexivity. Qed.
Lemma opkey_eqb_eq a b : opkey_eqb a b = true <-> a = b.
Proof.
  destruct a as [s|i], b as [t|j]; cbn; try (split; [discriminate|congruence]).
  - rewrite str_eqb_eq. split; congruence.
  - rewrite Nat.eqb_eq. split; congruence.
Qed.
Lemma rkey_eqb_eq a b : rkey_eqb a b = true <-> a = b.
Proof.
  destruct a as [[[p op] ns] n], b as [[[p' op'] ns'] n']. unfold rkey_eqb. rewrite !andb_true_iff, str_eqb_eq, opkey_eqb_eq, Nat.eqb_eq. split.
  - intros [[[-> ->] H] ->]. apply list_eqb_eq in H; [subst; reflexivity|]. intros a b. apply str_eqb_eq.
  - intros H. injection H as -> -> -> ->. repeat split; auto. apply list_eqb_same, str_eqb_same.
Qed.
Lemma akey_eqb_eq (a b : pystr * pystr) : str_eqb (fst a) (fst b) && str_eqb (snd a) (snd b) = true <-> a = b.
Proof. destruct a, b. cbn. rewrite andb_true_iff, !str_eqb_eq. split; [intros [-> ->]; reflexivity|intros H; injection H; auto]. Qed.
Lemma ckey_eqb_iff (a b : nat * list Z * list (pystr * Z)) : ckey_eqb Z.eqb a b = true <-> a = b.
Proof.
  destruct a as [[i s] z], b as [[i' s'] z']. split.
  - intros H. apply (ckey_eqb_eq Z.eqb zeq) in H as (-> & -> & ->). reflexivity.
  - intros H. injection H as -> -> ->. unfold ckey_eqb. rewrite Nat.eqb_refl, !list_eqb_same; [reflexivity| |apply Z.eqb_refl].
    intros [a x]. unfold size_eqb. cbn. rewrite str_eqb_same, Z.eqb_refl. reflexivity.
Qed.

(** ** accepted keys *)
Definition plain_order : orders := fun _ l => l.
Definition recipe_ok (U : unicode) (k : rkey) : bool :=
  let '(p, op, ns, n) := k in match prepare_recipe U plain_order p (op_of_key op) ns n with Ok _ => true | Err _ => false end.
Definition pattern_ok (U : unicode) (k : pystr * pystr) : bool := match analyze_pattern U (fst k) with Ok _ => true | Err _ => false end.
Definition compact_ok (U : unicode) (p : pystr) : bool := match compactify U p with Ok _ => true | Err _ => false end.

Section Accepted.
  Context (U : unicode) (HU : unicode_ok U).
  Lemma plain_ok : orders_ok plain_order.
  Proof. intros k l. apply Permutation_refl. Qed.
  Lemma prepare_any o o' p op ns n : orders_ok o -> orders_ok o' -> (exists rec, prepare_recipe U o p op ns n = Ok rec) -> exists rec, prepare_recipe U o' p op ns n = Ok rec.
  Proof. intros Ho Ho' H. apply (prepare_iff U o' p op ns n HU Ho'). apply (prepare_iff U o p op ns n HU Ho). exact H. Qed.
  Lemma recipe_ok_iff k : recipe_accepted U k <-> recipe_ok U k = true.
  Proof.
    destruct k as [[[p op] ns] n]. unfold recipe_accepted, recipe_ok. split.
    - intros (o & rec & Ho & H). destruct (prepare_any o plain_order p (op_of_key op) ns n Ho plain_ok (ex_intro _ rec H)) as [rec' ->]. reflexivity.
    - destruct (prepare_recipe U plain_order p (op_of_key op) ns n) as [rec|] eqn:E; [|discriminate]. intros _. exists plain_order, rec. split; [apply plain_ok|exact E].
  Qed.
  Lemma recipe_ok_any o p op ns n : orders_ok o -> recipe_ok U (p, op, ns, n) = match prepare_recipe U o p (op_of_key op) ns n with Ok _ => true | Err _ => false end.
  Proof.
    intros Ho. unfold recipe_ok. destruct (prepare_recipe U plain_order p (op_of_key op) ns n) as [a|] eqn:E1, (prepare_recipe U o p (op_of_key op) ns n) as [b|] eqn:E2; try reflexivity.
    - destruct (prepare_any _ o _ _ _ _ plain_ok Ho (ex_intro _ a E1)) as [? E]. congruence.
    - destruct (prepare_any o plain_order _ _ _ _ Ho plain_ok (ex_intro _ b E2)) as [? E]. congruence.
  Qed.
  Lemma pattern_ok_iff k : pattern_accepted U k <-> pattern_ok U k = true.
  Proof. unfold pattern_accepted, pattern_ok. destruct (analyze_pattern U (fst k)); split; eauto; try discriminate. intros [? H]. discriminate. Qed.
  Lemma compact_ok_iff p : einsum_accepted U p <-> compact_ok U p = true.
  Proof. unfold einsum_accepted, compact_ok. destruct (compactify U p); split; eauto; try discriminate. intros [? H]. discriminate. Qed.
End Accepted.

(** ** the state of the caches after a history *)
Section State.
  Context {A : Type} (lim : limits) (U : unicode) (HU : unicode_ok U).
  Implicit Types (h : list (event A)) (st : @caches Z).
  Notation recent_recipes h := (firstn (l_recipes lim) (recent rkey_eqb (recipe_ok U) (recipe_requests h))).
  Notation akey := (fun a b : pystr * pystr => str_eqb (fst a) (fst b) && str_eqb (snd a) (snd b)).
  Notation recent_patterns h := (firstn (l_analyzed lim) (recent akey (pattern_ok U) (pattern_requests h))).
  Notation recent_compact h := (firstn (l_compact lim) (recent str_eqb (compact_ok U) (einsum_requests h))).

  (** what each step does to the keys *)
  Lemma prepare_keys o k st ks : orders_ok o -> map fst (c_recipes st) = firstn (l_recipes lim) (recent rkey_eqb (recipe_ok U) ks) ->
    map fst (c_recipes (snd (cached_prepare lim U o k st))) = firstn (l_recipes lim) (recent rkey_eqb (recipe_ok U) (k :: ks)).
  Proof.
    intros Ho H. destruct k as [[[p op] ns] n]. unfold cached_prepare.
    set (compute := fun _ : unit => _).
    pose proof (lru_recent rkey_eqb rkey_eqb_eq (l_recipes lim) (recipe_ok U) compute (p, op, ns, n) (c_recipes st) ks) as L.
    destruct (lru rkey_eqb (l_recipes lim) compute (p, op, ns, n) (c_recipes st)) as [r c]. cbn [snd c_recipes] in *. apply L; [| |exact H]; subst compute; cbv beta.
    - intros e. rewrite (recipe_ok_any U HU o) by exact Ho. destruct (prepare_recipe U o p (op_of_key op) ns n); [discriminate|reflexivity].
    - intros v. rewrite (recipe_ok_any U HU o) by exact Ho. destruct (prepare_recipe U o p (op_of_key op) ns n); [reflexivity|discriminate].
  Qed.
  Lemma analyze_keys k st ks : map fst (c_analyzed st) = firstn (l_analyzed lim) (recent akey (pattern_ok U) ks) ->
    map fst (c_analyzed (snd (cached_analyze lim U (fst k) (snd k) st))) = firstn (l_analyzed lim) (recent akey (pattern_ok U) (k :: ks)).
  Proof.
    intros H. unfold cached_analyze. destruct k as [p op]. cbn [fst snd].
    pose proof (lru_recent akey akey_eqb_eq (l_analyzed lim) (pattern_ok U) (fun _ => analyze_pattern U p) (p, op) (c_analyzed st) ks) as L.
    destruct (lru akey (l_analyzed lim) (fun _ => analyze_pattern U p) (p, op) (c_analyzed st)) as [r c]. cbn [snd c_analyzed] in *.
    apply L; [| |exact H]; unfold pattern_ok; cbn [fst]; intros v E; rewrite E; reflexivity.
  Qed.
  Lemma compact_keys p st ks : map fst (c_compact st) = firstn (l_compact lim) (recent str_eqb (compact_ok U) ks) ->
    map fst (c_compact (snd (cached_compactify lim U p st))) = firstn (l_compact lim) (recent str_eqb (compact_ok U) (p :: ks)).
  Proof.
    intros H. unfold cached_compactify.
    pose proof (lru_recent str_eqb str_eqb_eq (l_compact lim) (compact_ok U) (fun _ => compactify U p) p (c_compact st) ks) as L.
    destruct (lru str_eqb (l_compact lim) (fun _ => compactify U p) p (c_compact st)) as [r c]. cbn [snd c_compact] in *.
    apply L; [| |exact H]; unfold compact_ok; intros v E; rewrite E; reflexivity.
  Qed.

  (** *** what a call does to each of the caches *)
  Lemma prepare_frame o k st : c_analyzed (snd (cached_prepare lim U o k st)) = c_analyzed st /\ c_compact (snd (cached_prepare lim U o k st)) = c_compact st.
  Proof. unfold cached_prepare. destruct k as [[[p op] ns] n]. destruct (lru rkey_eqb _ _ _ _). split; reflexivity. Qed.
  Lemma reconstruct_frame rec shape sizes st : let st' := snd (cached_reconstruct int_ops Z.eqb lim rec shape sizes st) in
    c_recipes st' = c_recipes st /\ c_analyzed st' = c_analyzed st /\ c_compact st' = c_compact st.
  Proof. unfold cached_reconstruct. destruct (lru (ckey_eqb Z.eqb) _ _ _ _). repeat split; reflexivity. Qed.
  Lemma cooked_frame {T} (B : backend T Z) rec x sizes st : let st' := snd (cooked_for int_ops Z.eqb (fun _ => true) lim B rec x sizes st) in
    c_recipes st' = c_recipes st /\ c_analyzed st' = c_analyzed st /\ c_compact st' = c_compact st.
  Proof.
    unfold cooked_for. destruct (key_hashable _ _ _); [|repeat split; reflexivity].
    pose proof (reconstruct_frame rec (b_shape B x) sizes st) as H. destruct (cached_reconstruct int_ops Z.eqb lim rec (b_shape B x) sizes st) as [[k|[]] st']; exact H.
  Qed.

  (** the step of a call: it prepares, analyses, compacts what it asks for *)
  Definition after_recipes (o : orders) (k : option rkey) st : caches := match k with Some k => snd (cached_prepare lim U o k st) | None => st end.
  Definition after_analyzed (k : option (pystr * pystr)) st : caches := match k with Some k => snd (cached_analyze lim U (fst k) (snd k) st) | None => st end.
  Definition after_compact (k : option pystr) st : caches := match k with Some k => snd (cached_compactify lim U k st) | None => st end.

  Lemma last_rev {T} (args : list (T + pystr)) : match last args (inr []) with inr p => if length args <=? 1 then None else Some p | inl _ => None end =
    match rev args with inr p :: _ :: _ => Some p | _ => None end.
  Proof.
    destruct args as [|a args] using rev_ind; [reflexivity|]. rewrite last_last, rev_app_distr, app_length. cbn [rev app length].
    destruct a as [t|p].
    - destruct (rev args); reflexivity.
    - rewrite <- rev_length. destruct (rev args); cbn [length]; [reflexivity|]. replace (S (length l) + 1 <=? 1) with false by (symmetry; apply Nat.leb_gt; lia). reflexivity.
  Qed.

  Lemma shape_rank (r : runtime A) t : length (b_shape (rt_backend r) t) = length (shp t).
  Proof. unfold rt_backend. destruct (rt_framework r); cbn; apply map_length. Qed.
  Lemma xp_rank (r : runtime A) t : length (xp_shape (rt_ns r) t) = length (shp t).
  Proof. apply map_length. Qed.

  Lemma serve_keys (r : runtime A) (c : call A) st : rt_unicode r = U ->
    c_recipes (snd (serve lim r c st)) = c_recipes (after_recipes (rt_orders r) (recipe_asked r c) st) /\
    c_analyzed (snd (serve lim r c st)) = c_analyzed (after_analyzed (pattern_asked c) st) /\
    c_compact (snd (serve lim r c st)) = c_compact (after_compact (einsum_asked c) st).
  Proof.
    intros EU.
    assert (AN : forall p op, let st' := snd (cached_analyze lim U p op st) in c_recipes st' = c_recipes st /\ c_compact st' = c_compact st).
    { intros p op. unfold cached_analyze. destruct (lru akey _ _ _ _). split; reflexivity. }
    destruct c as [x p red id sizes|x p red id sizes|ts p|x ps p|ts p|x ps p|lib args]; cbn [serve recipe_asked pattern_asked einsum_asked after_recipes after_analyzed after_compact].
    - unfold cached_reduce, cached_api_reduce. destruct (check_kwargs reserved_kwargs sizes) as [u|]; cbn [bind]; [|repeat split; reflexivity].
      destruct (stack_input (rt_backend r) x) as [t|]; [|repeat split; reflexivity]. destruct (opkey_of red id) as [op|]; [|repeat split; reflexivity].
      rewrite EU, shape_rank.
      cbn [after_recipes]. set (k := (p, op, map fst sizes, length (shp t))).
      pose proof (prepare_frame (rt_orders r) k st) as [F1 F2]. destruct (cached_prepare lim U (rt_orders r) k st) as [[rec|e] st1]; cbn [snd] in *; [|split; [reflexivity|split; assumption]].
      pose proof (cooked_frame (rt_backend r) rec t sizes st1) as F. destruct (cooked_for int_ops Z.eqb (fun _ => true) lim (rt_backend r) rec t sizes st1) as [k' st2]. cbn [snd] in *.
      destruct F as (G1 & G2 & G3). split; [exact G1|]. split; congruence.
    - unfold cached_xp_reduce. destruct (check_kwargs reserved_kwargs sizes) as [u|]; cbn [bind]; [|repeat split; reflexivity].
      destruct (stack_input_array_api (rt_ns r) x) as [t|]; [|repeat split; reflexivity]. destruct (opkey_of red id) as [op|]; [|repeat split; reflexivity].
      rewrite EU, xp_rank.
      cbn [after_recipes]. set (k := (p, op, map fst sizes, length (shp t))).
      pose proof (prepare_frame (rt_orders r) k st) as [F1 F2]. destruct (cached_prepare lim U (rt_orders r) k st) as [[rec|e] st1]; cbn [snd] in *; [|split; [reflexivity|split; assumption]].
      pose proof (reconstruct_frame rec (xp_shape (rt_ns r) t) sizes st1) as F. destruct (cached_reconstruct int_ops Z.eqb lim rec (xp_shape (rt_ns r) t) sizes st1) as [k' st2]. cbn [snd] in *.
      destruct F as (G1 & G2 & G3). split; [exact G1|]. split; congruence.
    - unfold cached_pack. rewrite EU. cbn [fst snd]. pose proof (AN p (lit "pack")) as [F1 F2]. destruct (cached_analyze lim U p (lit "pack") st) as [a st1]. repeat split; assumption.
    - unfold cached_unpack. rewrite EU. cbn [fst snd]. pose proof (AN p (lit "unpack")) as [F1 F2]. destruct (cached_analyze lim U p (lit "unpack") st) as [a st1]. repeat split; assumption.
    - unfold cached_xp_pack. rewrite EU. cbn [fst snd]. pose proof (AN p (lit "pack")) as [F1 F2]. destruct (cached_analyze lim U p (lit "pack") st) as [a st1]. repeat split; assumption.
    - unfold cached_xp_unpack. rewrite EU. cbn [fst snd]. pose proof (AN p (lit "unpack")) as [F1 F2]. destruct (cached_analyze lim U p (lit "unpack") st) as [a st1]. repeat split; assumption.
    - unfold cached_einsum. rewrite EU. rewrite <- last_rev. destruct (last args (inr [])) as [t|p]; [repeat split; reflexivity|].
      destruct (length args <=? 1); [repeat split; reflexivity|]. cbn [after_compact]. unfold cached_compactify. destruct (lru str_eqb _ _ _ _). repeat split; reflexivity.
  Qed.

  Lemma keys_after h : Forall (event_ok U) h ->
    map fst (c_recipes (caches_after lim U h)) = recent_recipes h /\
    map fst (c_analyzed (caches_after lim U h)) = recent_patterns h /\
    map fst (c_compact (caches_after lim U h)) = recent_compact h.
  Proof.
    induction h as [|e h IH]; intros F.
    - cbn. rewrite !firstn_nil. repeat split; reflexivity.
    - inversion_clear F as [|? ? He Fh]. destruct (IH Fh) as (H1 & H2 & H3). clear IH. unfold recipe_requests, pattern_requests, einsum_requests in *.
      cbn [caches_after requests]. set (st := caches_after lim U h) in *. destruct e as [r c|o k|rec shape sizes|b1 b2 b3 b4]; cbn [event_step event_ok] in *.
      + destruct He as [Hr EU]. destruct (serve_keys r c st EU) as (-> & -> & ->). split; [|split].
        * destruct (recipe_asked r c) as [k|]; cbn [after_recipes]; [|exact H1]. apply prepare_keys; [apply Hr|exact H1].
        * destruct (pattern_asked c) as [k|]; cbn [after_analyzed]; [|exact H2]. apply analyze_keys, H2.
        * destruct (einsum_asked c) as [k|]; cbn [after_compact]; [|exact H3]. apply compact_keys, H3.
      + destruct (prepare_frame o k st) as [-> ->]. split; [|split; assumption]. apply prepare_keys; assumption.
      + destruct (reconstruct_frame rec shape sizes st) as (-> & -> & ->). repeat split; assumption.
      + cbn [c_recipes c_analyzed c_compact]. split; [|split].
        * destruct b1; [rewrite firstn_nil; reflexivity|exact H1].
        * destruct b3; [rewrite firstn_nil; reflexivity|exact H2].
        * destruct b4; [rewrite firstn_nil; reflexivity|exact H3].
  Qed.
End State.
