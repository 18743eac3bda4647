(** * A process answers as if there were no registry and no caches *)
From Verif Require Import Py Tensor Parsing Recipe Ops Backends Api ApiFacts6 Packing Einsum Registry SpecGrammar SpecRegistry RegistryFacts Cache CacheFacts
  Layers ListFacts ParseFacts SpecSpelling MixFacts9 SpellingFacts Session SpecSession.

Definition keeps (c c' : @caches Z) : Prop := forall id rec, nth_error (c_made c) id = Some rec -> nth_error (c_made c') id = Some rec.
Lemma keeps_refl c : keeps c c.
Proof. intros id rec H. exact H. Qed.
Lemma keeps_trans a b c : keeps a b -> keeps b c -> keeps a c.
Proof. intros H1 H2 id rec H. apply H2, H1, H. Qed.
Lemma keeps_eq c c' : c_made c' = c_made c -> keeps c c'.
Proof. intros E id rec H. rewrite E. exact H. Qed.

Section Keep.
  Context (lim : limits) (U : unicode).
  Lemma prepare_keeps o k (c : @caches Z) : keeps c (snd (cached_prepare lim U o k c)).
  Proof.
    unfold cached_prepare. destruct (lru _ _ _ _ _) as [r c']. cbn. intros id rec H. cbn.
    assert (X : forall x, nth_error (c_made c ++ [x]) id = Some rec) by (intros x; rewrite nth_error_app1; [exact H|apply nth_error_Some; congruence]).
    destruct (take_key _ _ _); [exact H|]. destruct r as [[i x]|e]; [apply X|exact H].
  Qed.
  Lemma reconstruct_keeps rec sh sz (c : @caches Z) : keeps c (snd (cached_reconstruct int_ops Z.eqb lim rec sh sz c)).
  Proof. apply keeps_eq. unfold cached_reconstruct. destruct (lru _ _ _ _ _). reflexivity. Qed.
  Lemma analyze_keeps p op (c : @caches Z) : keeps c (snd (cached_analyze lim U p op c)).
  Proof. apply keeps_eq. unfold cached_analyze. destruct (lru _ _ _ _ _). reflexivity. Qed.
  Lemma compactify_keeps p (c : @caches Z) : keeps c (snd (cached_compactify lim U p c)).
  Proof. apply keeps_eq. unfold cached_compactify. destruct (lru _ _ _ _ _). reflexivity. Qed.
  Lemma cooked_keeps {T} (B : backend T Z) rec x sz (c : @caches Z) : keeps c (snd (cooked_for int_ops Z.eqb (fun _ => true) lim B rec x sz c)).
  Proof.
    unfold cooked_for. destruct (key_hashable _ _ _); [|apply keeps_refl].
    pose proof (reconstruct_keeps rec (b_shape B x) sz c) as H. destruct (cached_reconstruct int_ops Z.eqb lim rec (b_shape B x) sz c) as [[k|e] c']; [exact H|].
    destruct e; exact H.
  Qed.
End Keep.

Section Serve.
  Context (lim : limits) {A : Type} (r : runtime A).
  Lemma reduce_keeps x p red id sizes c : keeps c (snd (cached_reduce lim r x p red id sizes c)).
  Proof.
    unfold cached_reduce, cached_api_reduce. destruct (bind _ _) as [t|e]; [|apply keeps_refl]. destruct (opkey_of red id) as [op|]; [|apply keeps_refl].
    pose proof (prepare_keeps lim (rt_unicode r) (rt_orders r) (p, op, map fst sizes, length (b_shape (rt_backend r) t)) c) as H.
    destruct (cached_prepare _ _ _ _ _) as [[rec|e] c1]; [|exact H]. cbn [snd] in H.
    pose proof (cooked_keeps lim (rt_backend r) rec t sizes c1) as H1. destruct (cooked_for _ _ _ _ _ _ _ _ _) as [k c2]. exact (keeps_trans _ _ _ H H1).
  Qed.
  Lemma xp_reduce_keeps x p red id sizes c : keeps c (snd (cached_xp_reduce lim r x p red id sizes c)).
  Proof.
    unfold cached_xp_reduce. destruct (bind _ _) as [t|e]; [|apply keeps_refl]. destruct (opkey_of red id) as [op|]; [|apply keeps_refl].
    pose proof (prepare_keeps lim (rt_unicode r) (rt_orders r) (p, op, map fst sizes, length (xp_shape (rt_ns r) t)) c) as H.
    destruct (cached_prepare _ _ _ _ _) as [[rec|e] c1]; [|exact H]. cbn [snd] in H.
    pose proof (reconstruct_keeps lim rec (xp_shape (rt_ns r) t) sizes c1) as H1. destruct (cached_reconstruct _ _ _ _ _ _ _) as [k c2]. exact (keeps_trans _ _ _ H H1).
  Qed.
  Lemma serve_keeps q c : keeps c (snd (serve lim r q c)).
  Proof.
    destruct q as [x p red id sizes|x p red id sizes|ts p|x ps p|ts p|x ps p|lib args]; cbn [serve].
    - pose proof (reduce_keeps x p red id sizes c) as H. destruct (cached_reduce _ _ _ _ _ _ _ _). exact H.
    - pose proof (xp_reduce_keeps x p red id sizes c) as H. destruct (cached_xp_reduce _ _ _ _ _ _ _ _). exact H.
    - unfold cached_pack. pose proof (analyze_keeps lim (rt_unicode r) p (lit "pack") c) as H. destruct (cached_analyze _ _ _ _ _). exact H.
    - unfold cached_unpack. pose proof (analyze_keeps lim (rt_unicode r) p (lit "unpack") c) as H. destruct (cached_analyze _ _ _ _ _). exact H.
    - unfold cached_xp_pack. pose proof (analyze_keeps lim (rt_unicode r) p (lit "pack") c) as H. destruct (cached_analyze _ _ _ _ _). exact H.
    - unfold cached_xp_unpack. pose proof (analyze_keeps lim (rt_unicode r) p (lit "unpack") c) as H. destruct (cached_analyze _ _ _ _ _). exact H.
    - unfold cached_einsum. destruct (last args (inr [])) as [t|p]; [apply keeps_refl|]. destruct (length args <=? 1); [apply keeps_refl|].
      pose proof (compactify_keeps lim (rt_unicode r) p c) as H. destruct (cached_compactify _ _ _ _). exact H.
  Qed.
  Lemma serve_spec (Hok : runtime_ok r) q c v c' : call_ok q -> reachable_caches int_ops Z.eqb lim (rt_unicode r) c -> serve lim r q c = (v, c') ->
    reachable_caches int_ops Z.eqb lim (rt_unicode r) c' /\ v = compute r q.
  Proof.
    intros Hc Hr E. destruct q as [x p red id sizes|x p red id sizes|ts p|x ps p|ts p|x ps p|lib args]; cbn [serve compute call_ok] in *.
    - destruct Hc as [Hn Hk]. destruct (cached_reduce lim r x p red id sizes c) as [v0 st0] eqn:E0. apply (reduce_cached lim r Hok) in E0 as [H1 ->]; auto. injection E as <- <-. auto.
    - destruct Hc as [Hn Hk]. destruct (cached_xp_reduce lim r x p red id sizes c) as [v0 st0] eqn:E0. apply (xp_reduce_cached lim r Hok) in E0 as [H1 ->]; auto. injection E as <- <-. auto.
    - destruct (cached_pack lim r ts p c) as [v0 st0] eqn:E0. apply (packing_cached lim r c Hr) in E0 as [H1 ->]. injection E as <- <-. auto.
    - destruct (cached_unpack lim r x ps p c) as [v0 st0] eqn:E0. apply (packing_cached lim r c Hr) in E0 as [H1 ->]. injection E as <- <-. auto.
    - destruct (cached_xp_pack lim r ts p c) as [v0 st0] eqn:E0. apply (packing_cached lim r c Hr) in E0 as [H1 ->]. injection E as <- <-. auto.
    - destruct (cached_xp_unpack lim r x ps p c) as [v0 st0] eqn:E0. apply (packing_cached lim r c Hr) in E0 as [H1 ->]. injection E as <- <-. auto.
    - destruct (cached_einsum lim r lib args c) as [v0 st0] eqn:E0. apply (einsum_cached lim r) in E0 as [H1 ->]; auto. injection E as <- <-. auto.
  Qed.
End Serve.

(** ** the recipes of a layer *)
Definition strip (e : nat * (nat * recipe)) : nat * recipe := (fst e, snd (snd e)).
Definition kept (c : @caches Z) (e : nat * (nat * recipe)) : Prop := nth_error (c_made c) (fst (snd e)) = Some (snd (snd e)).
Section Dims.
  Context (lim : limits) (U : unicode).
  Notation reach := (reachable_caches int_ops Z.eqb lim U).
  Definition prep_at (os : nat -> orders) pattern op names n : result (nat * recipe) := let* rec := prepare_recipe U (os n) pattern op names n in Ok (n, rec).
  Lemma cached_dims_spec o pattern op names dims : orders_ok o -> NoDup dims -> forall c r c', reach c -> cached_dims lim U o pattern op names dims c = (r, c') ->
    reach c' /\ keeps c c' /\ (forall recs, r = Ok recs -> Forall (kept c') recs) /\
    exists os, (forall n, orders_ok (os n)) /\ (let* recs := r in Ok (map strip recs)) = mapM (prep_at os pattern (op_of_key op) names) dims.
  Proof.
    intros Ho. induction dims as [|n dims IH]; intros Hn c r c' Hr E; cbn [cached_dims] in E.
    - injection E as <- <-. split; [exact Hr|]. split; [apply keeps_refl|]. split; [intros recs E; injection E as <-; constructor|].
      exists (fun _ => o). split; [auto|reflexivity].
    - inversion Hn as [|? ? Hn1 Hn2]; subst. pose proof (RC_prepare int_ops Z.eqb lim U o (pattern, op, names, n) c Hr Ho) as Hr1.
      pose proof (prepare_keeps lim U o (pattern, op, names, n) c) as K1.
      destruct (cached_prepare lim U o (pattern, op, names, n) c) as [r1 c1] eqn:E1. cbn [snd] in *.
      apply (prepare_sound int_ops) in E1 as (_ & (o' & Ho' & E1) & Hm); [|apply (reachable_sound int_ops Z.eqb zeq lim), Hr|exact Ho].
      destruct r1 as [[i rec]|e].
      + cbn [bind snd] in E1. specialize (Hm i rec eq_refl). destruct (cached_dims lim U o pattern op names dims c1) as [r2 c2] eqn:E2.
        destruct (IH Hn2 c1 r2 c2 Hr1 E2) as (Hr2 & K2 & F & os & Hos & Em).
        assert (X : exists os', (forall k, orders_ok (os' k)) /\ os' n = o' /\ forall k, In k dims -> os' k = os k).
        { exists (fun k => if k =? n then o' else os k). split; [|split].
          - intros k. destruct (k =? n); auto.
          - rewrite Nat.eqb_refl. reflexivity.
          - intros k Hk. destruct (Nat.eqb_spec k n); [subst; contradiction|reflexivity]. }
        destruct X as (os' & Hos' & En & Ek).
        assert (Em' : mapM (prep_at os' pattern (op_of_key op) names) dims = mapM (prep_at os pattern (op_of_key op) names) dims).
        { apply mapM_ext_in. intros k Hk. unfold prep_at. rewrite (Ek k Hk). reflexivity. }
        assert (G : forall v, (let* recs := r2 in Ok (map strip recs)) = v ->
            mapM (prep_at os' pattern (op_of_key op) names) (n :: dims) = let* l := v in Ok ((n, rec) :: l)).
        { intros v Ev. cbn [mapM]. unfold prep_at at 1. rewrite En, <- E1. cbn [bind]. rewrite Em', <- Em, Ev. reflexivity. }
        specialize (G _ eq_refl).
        destruct r2 as [recs|e]; injection E as <- <-; (split; [exact Hr2|]; split; [exact (keeps_trans _ _ _ K1 K2)|]; split).
        * intros recs' E. injection E as <-. constructor; [exact (K2 _ _ Hm)|apply F; reflexivity].
        * exists os'. split; [exact Hos'|]. rewrite G. reflexivity.
        * discriminate.
        * exists os'. split; [exact Hos'|]. rewrite G. reflexivity.
      + cbn [bind] in E1. injection E as <- <-. split; [exact Hr1|]. split; [exact K1|]. split; [discriminate|].
        exists (fun _ => o'). split; [auto|]. cbn [mapM]. unfold prep_at at 1. rewrite <- E1. reflexivity.
  Qed.
  Lemma dims_NoDup lft : NoDup (dims_of_left lft).
  Proof.
    unfold dims_of_left. destruct (p_has_ellipsis lft); [|constructor; [intros []|constructor]].
    apply FinFun.Injective_map_NoDup; [intros a b H; lia|apply seq_NoDup].
  Qed.
  Lemma cached_all_dims_spec o pattern op names c r c' : orders_ok o -> reach c -> cached_all_dims lim U o pattern op names c = (r, c') ->
    reach c' /\ keeps c c' /\ (forall recs, r = Ok recs -> Forall (kept c') recs) /\
    exists os, (forall n, orders_ok (os n)) /\ (let* recs := r in Ok (map strip recs)) = prepare_all_dims U os pattern (op_of_key op) names.
  Proof.
    intros Ho Hr E. unfold cached_all_dims in E. unfold prepare_all_dims.
    assert (Bad : forall e, (r, c') = (Err e, c) -> reach c' /\ keeps c c' /\ (forall recs, r = Ok recs -> Forall (kept c') recs) /\
      exists os : nat -> orders, (forall n, orders_ok (os n)) /\ (let* recs := r in Ok (map strip recs)) = Err e).
    { intros e X. injection X as -> ->. split; [exact Hr|]. split; [apply keeps_refl|]. split; [discriminate|]. exists (fun _ => o). auto. }
    destruct (str_split s_arrow pattern) as [|l [|rr [|? ?]]]; try (apply Bad; symmetry; exact E).
    destruct (parse_expression U false false 0 l) as [[lft k]|e]; [|apply Bad; symmetry; exact E]. cbn [bind].
    apply (cached_dims_spec o pattern op names (dims_of_left lft) Ho (dims_NoDup lft) c r c' Hr E).
  Qed.
End Dims.
Lemma dict_get_strip n (recs : list (nat * (nat * recipe))) :
  dict_get Nat.eqb n (map strip recs) = option_map snd (dict_get Nat.eqb n recs).
Proof. induction recs as [|[k [i rec]] recs IH]; cbn; [reflexivity|]. destruct (n =? k); [reflexivity|exact IH]. Qed.
Lemma dict_get_in n (recs : list (nat * (nat * recipe))) e : dict_get Nat.eqb n recs = Some e -> exists k, In (k, e) recs.
Proof.
  induction recs as [|[k x] recs IH]; cbn; [discriminate|]. destruct (n =? k); [intros E; injection E as ->; eauto|].
  intros E. destruct (IH E) as [k' H]. eauto.
Qed.

Section Session.
  Context {A : Type} (lim : limits) (U : unicode) (HU : unicode_ok U).
  Context (fw_of : nat -> option framework) (build : nat -> bclass -> list pystr -> option exn * list pystr).
  Context (library : framework -> runtime A) (lib_einsum : framework -> pystr -> list (tensor A) -> result (tensor A)).
  Context (Hb : honest build) (Hl : forall f, rt_framework (library f) = f /\ rt_unicode (library f) = U).
  Notation reach := (reachable_caches int_ops Z.eqb lim U).
  Notation accepts := (accepts fw_of (A := A)).
  Notation run := (Registry.run o_type accepts build).

  Lemma rt_good f o : orders_ok o -> runtime_ok (rt library f o).
  Proof. intros Ho. split; [cbn; rewrite (proj2 (Hl f)); exact HU|exact Ho]. Qed.
  Lemma rt_uni f o : rt_unicode (rt library f o) = U.
  Proof. apply (proj2 (Hl f)). Qed.

  (** the registry *)
  Definition reg_ok (ms : list pystr) (reg : registry) : Prop :=
    (exists es, reg = run es fresh_registry /\ forall roots y, In (Get roots y) es -> roots = einops_backends) /\ incl ms (modules reg).
  Lemma reg_modules ms ms' reg : reg_ok ms reg -> reg_ok ms' (Registry.step o_type accepts build reg (Modules ms')).
  Proof.
    intros [(es & -> & He) _]. split; [|apply incl_refl]. exists (es ++ [Modules ms']). split.
    - unfold Registry.run. rewrite fold_left_app. reflexivity.
    - intros roots y Hi. apply in_app_iff in Hi as [Hi|[Hi|[]]]; [eauto|discriminate].
  Qed.
  Lemma get_modules x reg : incl (modules reg) (modules (fst (get_backend o_type accepts build einops_backends x reg))).
  Proof.
    unfold get_backend. destruct (find_key _ _ _); [apply incl_refl|]. destruct (find _ _) as [[fw b]|]; [apply incl_refl|].
    destruct (try_classes _ _ _ _ _ _) as [reg' r] eqn:E. apply try_mono in E as [E _]; [exact E|exact Hb].
  Qed.
  Lemma reg_get ms x reg : reg_ok ms reg -> reg_ok ms (fst (get_backend o_type accepts build einops_backends x reg)).
  Proof.
    intros [(es & -> & He) Hm]. split; [|exact (incl_tran Hm (get_modules x _))]. exists (es ++ [Get einops_backends x]). split.
    - unfold Registry.run. rewrite fold_left_app. reflexivity.
    - intros roots y Hi. apply in_app_iff in Hi as [Hi|[Hi|[]]]; [eauto|]. injection Hi as <- <-. reflexivity.
  Qed.
  Lemma accepts_type c (y z : object A) : o_type y = o_type z -> accepts c y = accepts c z.
  Proof. intros E. unfold Session.accepts. rewrite E. reflexivity. Qed.
  Lemma names_once c c' : In c (flat_map classes einops_backends) -> In c' (flat_map classes einops_backends) -> c_name c = c_name c' -> c = c'.
  Proof.
    cbn [flat_map einops_backends backend_class classes map app]. intros H H' E.
    repeat (destruct H as [<-|H]; [repeat (destruct H' as [<-|H']; [solve [reflexivity|exfalso; vm_compute in E; discriminate E]|]); destruct H'|]). destruct H.
  Qed.
  Lemma listed c : In c (flat_map classes einops_backends) -> In (c_name c, c_framework c)
    [(lit "NumpyBackend", lit "numpy"); (lit "JaxBackend", lit "jax"); (lit "TorchBackend", lit "torch"); (lit "CupyBackend", lit "cupy");
     (lit "TensorflowBackend", lit "tensorflow"); (lit "TFKerasBackend", lit "tensorflow.keras"); (lit "OneFlowBackend", lit "oneflow");
     (lit "PaddleBackend", lit "paddle"); (lit "TinygradBackend", lit "tinygrad"); (lit "PyTensorBackend", lit "pytensor")].
  Proof.
    cbn [flat_map einops_backends backend_class classes map app]. intros H.
    repeat (destruct H as [<-|H]; [cbn [c_name c_framework]; repeat (try (left; reflexivity); right)|]). destruct H.
  Qed.
  Lemma framework_found c f : In c (flat_map classes einops_backends) -> c_name c = class_name f -> framework_of c = Some f.
  Proof.
    cbn [flat_map einops_backends backend_class classes map app]. intros H E.
    repeat (destruct H as [<-|H]; [destruct f; solve [reflexivity|exfalso; vm_compute in E; discriminate E]|]). destruct H.
  Qed.

  Notation backend_for := (backend_for fw_of build).
  Definition with_registry (st : process A) reg : process A := {| pr_registry := reg; pr_caches := pr_caches st; pr_layers := pr_layers st |}.
  Lemma backend_for_spec ms x st : reg_ok ms (pr_registry st) -> present fw_of ms x ->
    exists reg, backend_for x st = (known fw_of x Ok, with_registry st reg) /\ reg_ok ms reg.
  Proof.
    intros Hr Hp. pose proof (reg_get ms x _ Hr) as Hr'. unfold Session.backend_for.
    destruct (get_backend o_type accepts build einops_backends x (pr_registry st)) as [reg b] eqn:E. cbn [fst] in Hr'. exists reg. split; [|exact Hr'].
    unfold with_registry. f_equal. unfold known. unfold present in Hp. destruct Hr as [(es & Ees & He) Hm].
    destruct (fw_of (o_type x)) as [f|] eqn:Ef.
    - destruct Hp as (c & Hc & En & Hi). destruct (found_ours o_type accepts build es x c accepts_type Hb He (listed c Hc)) as [n F].
      + unfold Session.accepts. rewrite Ef, En. apply str_eqb_eq. reflexivity.
      + intros c' Hc' Ha. unfold Session.accepts in Ha. rewrite Ef in Ha. apply str_eqb_eq in Ha. apply names_once; congruence.
      + rewrite <- Ees. apply Hm, Hi.
      + rewrite <- Ees, E in F. cbn [snd] in F. subst b. cbn [bind snd]. rewrite (framework_found c f Hc En). reflexivity.
    - destruct b as [b|e].
      + exfalso. apply accepts_itself in E; [|exact accepts_type|exists es; exact Ees]. unfold Session.accepts in E. rewrite Ef in E. discriminate.
      + apply get_error in E as [-> _]; [reflexivity|exact Hb].
  Qed.

  (** ** the state of the process *)
  Notation layers := (list (bool * layer (tensor A))).
  Definition layer_ok (c : @caches Z) (s : stored_layer A) (l : bool * layer (tensor A)) : Prop :=
    sl_torch s = fst l /\ Forall (kept c) (sl_recipes s) /\
    exists pattern, same_layer U (mkLayer pattern (sl_red s) (sl_sizes s) (map strip (sl_recipes s))) (snd l).
  Record inv (ms : list pystr) (ls : layers) (st : process A) : Prop := {
    i_reg : reg_ok ms (pr_registry st);
    i_caches : reach (pr_caches st);
    i_layers : Forall2 (layer_ok (pr_caches st)) (pr_layers st) ls }.
  Lemma layer_keeps c c' s l : keeps c c' -> layer_ok c s l -> layer_ok c' s l.
  Proof. intros K (H1 & H2 & H3). split; [exact H1|]. split; [|exact H3]. eapply Forall_impl; [|exact H2]. intros e. apply K. Qed.
  Lemma inv_caches ms ls st c : inv ms ls st -> reach c -> keeps (pr_caches st) c -> inv ms ls (with_caches st c).
  Proof.
    intros [H1 H2 H3] Hr K. split; cbn; [exact H1|exact Hr|]. induction H3 as [|s l ss ls' H HF IH]; constructor; [exact (layer_keeps _ _ _ _ K H)|exact IH].
  Qed.
  Lemma inv_registry ms ls st reg : inv ms ls st -> reg_ok ms reg -> inv ms ls (with_registry st reg).
  Proof. intros [H1 H2 H3] Hr. split; assumption. Qed.

  (** a call that asks for a backend *)
  Lemma with_backend_spec {V} ms ls x st (go : framework -> process A -> result V * process A) (v : framework -> result V) :
    inv ms ls st -> present fw_of ms x ->
    (forall f st1, fw_of (o_type x) = Some f -> pr_caches st1 = pr_caches st -> inv ms ls st1 -> exists st2, go f st1 = (v f, st2) /\ inv ms ls st2) ->
    exists st', with_backend fw_of build x st go = (known fw_of x v, st') /\ inv ms ls st'.
  Proof.
    intros Hi Hp H. destruct (backend_for_spec ms x st (i_reg _ _ _ Hi) Hp) as (reg & E & Hr). unfold with_backend. rewrite E.
    pose proof (inv_registry ms ls st reg Hi Hr) as Hi'. unfold known. destruct (fw_of (o_type x)) as [f|] eqn:Ef.
    - apply H; [reflexivity|reflexivity|exact Hi'].
    - eauto.
  Qed.
  Lemma analyzed ms ls st p op : inv ms ls st ->
    exists c, cached_analyze lim U p op (pr_caches st) = (analyze_pattern U p, c) /\ inv ms ls (with_caches st c).
  Proof.
    intros Hi. pose proof (RC_analyze int_ops Z.eqb lim U p op _ (i_caches _ _ _ Hi)) as Hr. pose proof (analyze_keeps lim U p op (pr_caches st)) as K.
    destruct (cached_analyze lim U p op (pr_caches st)) as [a c] eqn:E.
    apply (analyze_sound int_ops) in E as [_ ->]; [|apply (reachable_sound int_ops Z.eqb zeq lim), Hi]. exists c. split; [reflexivity|]. apply inv_caches; assumption.
  Qed.
  Lemma compactified ms ls st p : inv ms ls st ->
    exists c, cached_compactify lim U p (pr_caches st) = (compactify U p, c) /\ inv ms ls (with_caches st c).
  Proof.
    intros Hi. pose proof (RC_compactify int_ops Z.eqb lim U p _ (i_caches _ _ _ Hi)) as Hr. pose proof (compactify_keeps lim U p (pr_caches st)) as K.
    destruct (cached_compactify lim U p (pr_caches st)) as [a c] eqn:E.
    apply (compactify_sound int_ops) in E as [_ ->]; [|apply (reachable_sound int_ops Z.eqb zeq lim), Hi]. exists c. split; [reflexivity|]. apply inv_caches; assumption.
  Qed.

  Lemma reduce_right ms ls st o x p red id sizes : inv ms ls st -> orders_ok o ->
    NoDup (map fst sizes) -> opkey_of red id <> None -> (forall t, first_of x = Some t -> present fw_of ms t) ->
    exists st', do_reduce lim fw_of build library o x p red id sizes st =
      ((let* _ := check_kwargs reserved_kwargs sizes in
        match first_of x with Some t => known fw_of t (fun f => reduce (rtm library f o) (input_data x) p red sizes) | None => Err TypeError end), st') /\ inv ms ls st'.
  Proof.
    intros Hi Ho Hn Hk Hp. unfold do_reduce. destruct (check_kwargs reserved_kwargs sizes) as [u|e]; cbn [bind]; [|eauto].
    destruct (first_of x) as [t|]; [|eauto]. apply with_backend_spec; [exact Hi|apply Hp; reflexivity|]. intros f st1 Ef Es1 Hi1.
    destruct (cached_reduce lim (rt library f o) (input_data x) p red id sizes (pr_caches st1)) as [v c] eqn:E.
    pose proof (reduce_keeps lim (rt library f o) (input_data x) p red id sizes (pr_caches st1)) as K. rewrite E in K.
    apply (reduce_cached lim _ (rt_good f o Ho)) in E as [Hr ->]; [|rewrite rt_uni; apply Hi1|exact Hn|exact Hk]. rewrite rt_uni in Hr.
    eexists. split; [reflexivity|]. apply inv_caches; assumption.
  Qed.
  Lemma einsum_right ms ls st args : inv ms ls st -> (forall x, In (inl x) args -> present fw_of ms x) ->
    exists st', do_einsum lim U fw_of build lib_einsum args st =
      ((match args with
        | inl x :: _ :: _ =>
            match fw_of (o_type x) with
            | Some f => einsum_with U (match f with Keras => fun _ _ => Err NotImplementedError | _ => lib_einsum f end) (map arg_data args)
            | None => einsum_given (fun _ _ => Err RuntimeError) (fun p => let* _ := compactify U p in Err RuntimeError) (map arg_data args)
            end
        | _ => einsum_with U (fun _ _ => Err RuntimeError) (map arg_data args)
        end), st') /\ inv ms ls st'.
  Proof.
    intros Hi Hp. unfold do_einsum.
    assert (El : last (map arg_data args) (inr []) = arg_data (last args (inr []))).
    { clear. induction args as [|a args IH]; [reflexivity|]. destruct args as [|b args]; [reflexivity|]. exact IH. }
    assert (Er : removelast (map arg_data args) = map arg_data (removelast args)).
    { clear. induction args as [|a args IH]; [reflexivity|]. destruct args as [|b args]; [reflexivity|]. cbn [map removelast] in *. f_equal. exact IH. }
    destruct args as [|a [|b args]]; [eexists; split; [reflexivity|exact Hi]|destruct a; eexists; (split; [reflexivity|exact Hi])|].
    remember (a :: b :: args) as all eqn:Eall.
    assert (Hlen : (length all <=? 1) = false) by (rewrite Eall; reflexivity).
    assert (Hlen' : (length (map (arg_data (A := A)) all) <=? 1) = false) by (rewrite map_length; exact Hlen).
    rewrite Hlen. unfold einsum_with, einsum_given. rewrite Hlen', El, Er. cbn [raise_if bind].
    assert (Ehd : exists rest, removelast all = a :: rest) by (rewrite Eall; cbn [removelast]; eauto). destruct Ehd as [rest Ehd].
    destruct (last all (inr [])) as [t|pattern] eqn:Elast; cbn [arg_data].
    - eexists. split; [|exact Hi]. destruct a as [x|s]; [|reflexivity]. destruct (fw_of (o_type x)); reflexivity.
    - destruct (compactified ms ls st pattern Hi) as (c & Ec & Hi1). rewrite Ec. destruct (compactify U pattern) as [compact|e]; cbn [bind].
      + rewrite Ehd. destruct a as [x|s]; cbn [map arg_data].
        * destruct (with_backend_spec ms ls x (with_caches st c) (fun f st0 => ((let* ts := mapM as_tensor (inl (o_data x) :: map arg_data rest) in backend_einsum lib_einsum f compact ts), st0))
            (fun f => let* ts := mapM as_tensor (inl (o_data x) :: map arg_data rest) in backend_einsum lib_einsum f compact ts) Hi1) as (st' & E & Hi2).
          { apply Hp. rewrite Eall. left. reflexivity. }
          { intros f st1 _ _ H1. eauto. }
          exists st'. split; [|exact Hi2]. rewrite E. unfold known. destruct (fw_of (o_type x)); reflexivity.
        * eexists. split; [reflexivity|exact Hi1].
      + eexists. split; [|exact Hi1]. destruct a as [x|s]; [|reflexivity]. destruct (fw_of (o_type x)); reflexivity.
  Qed.
  Lemma pack_right ms ls st o ts p : inv ms ls st -> (forall x, In x ts -> present fw_of ms x) ->
    exists st', do_pack lim U fw_of build library ts p st =
      ((let* _ := analyze_pattern U p in match ts with [] => Err IndexError | x :: _ => known fw_of x (fun f => pack (rtm library f o) (map o_data ts) p) end), st') /\ inv ms ls st'.
  Proof.
    intros Hi Hp. unfold do_pack. destruct (analyzed ms ls st p (lit "pack") Hi) as (c & -> & Hi1).
    destruct (analyze_pattern U p) as [a|e] eqn:Ea; cbn [bind]; [|eauto]. destruct ts as [|x ts]; [eauto|].
    apply with_backend_spec; [exact Hi1|apply Hp; left; reflexivity|]. intros f st1 Ef Es1 H1. exists st1. split; [|exact H1].
    f_equal. unfold pack, pack_with. change (rt_unicode (rtm library f o)) with (rt_unicode (library f)). rewrite (proj2 (Hl f)), Ea. reflexivity.
  Qed.
  Lemma unpack_right ms ls st o x ps p : inv ms ls st -> present fw_of ms x ->
    exists st', do_unpack lim U fw_of build library x ps p st =
      ((let* _ := analyze_pattern U p in known fw_of x (fun f => unpack (rtm library f o) (o_data x) ps p)), st') /\ inv ms ls st'.
  Proof.
    intros Hi Hp. unfold do_unpack. destruct (analyzed ms ls st p (lit "unpack") Hi) as (c & -> & Hi1).
    destruct (analyze_pattern U p) as [a|e] eqn:Ea; cbn [bind]; [|eauto].
    apply with_backend_spec; [exact Hi1|exact Hp|]. intros f st1 Ef Es1 H1. exists st1. split; [|exact H1].
    f_equal. unfold unpack, unpack_with. change (rt_unicode (rtm library f o)) with (rt_unicode (library f)). rewrite (proj2 (Hl f)), Ea. reflexivity.
  Qed.
  Lemma make_right ms ls st o torch reserved p red id sizes : inv ms ls st -> orders_ok o -> NoDup (map fst sizes) -> opkey_of red id <> None ->
    exists st', do_make lim U o torch reserved p red id sizes st =
      ((let* _ := check_kwargs reserved sizes in let* _ := make_layer U (fun _ => o) p red sizes in Ok tt), st') /\
      inv ms (match (let* _ := check_kwargs reserved sizes in make_layer U (fun _ => o) p red sizes) with Ok L => ls ++ [(torch, L)] | Err _ => ls end) st'.
  Proof.
    intros Hi Ho Hn Hk. unfold do_make. destruct (check_kwargs reserved sizes) as [u|e]; cbn [bind]; [|eauto].
    destruct (opkey_of red id) as [op|] eqn:Eop; [|contradiction]. apply opkey_of_op in Eop.
    destruct (cached_all_dims lim U o p op (map fst sizes) (pr_caches st)) as [r c] eqn:E.
    apply cached_all_dims_spec in E as (Hr & K & F & os & Hos & Em); [|exact Ho|apply Hi]. rewrite Eop in Em.
    pose proof (make_reordered U HU os (fun _ => o) p red sizes sizes Hos (fun _ => Ho) Hn (Permutation_refl _)) as G.
    unfold make_layer at 1 in G. rewrite <- Em in G. pose proof (inv_caches ms ls st c Hi Hr K) as Hi1.
    destruct r as [recs|e]; cbn [bind] in G; destruct (make_layer U (fun _ => o) p red sizes) as [L|e']; cbn [same_outcome bind] in *; try contradiction.
    - eexists. split; [reflexivity|]. destruct Hi1 as [I1 I2 I3]. split; cbn; [exact I1|exact I2|]. apply Forall2_app; [exact I3|]. constructor; [|constructor].
      split; [reflexivity|]. split; [apply F; reflexivity|]. exists p. exact G.
    - subst e'. eexists. split; [reflexivity|exact Hi1].
  Qed.
  Lemma use_right ms ls st o k x : inv ms ls st -> orders_ok o -> present fw_of ms x ->
    (forall torch L, nth_error ls k = Some (torch, L) -> (torch = true <-> fw_of (o_type x) = Some Torch)) ->
    exists st', do_use lim fw_of build library o k x st =
      ((match nth_error ls k with Some (_, L) => known fw_of x (fun f => call_layer (rtm library f o) L (o_data x)) | None => Err IndexError end), st') /\ inv ms ls st'.
  Proof.
    intros Hi Ho Hp Ht. unfold do_use. pose proof (i_layers _ _ _ Hi) as Hls. destruct (nth_error ls k) as [[torch L]|] eqn:Ek.
    - destruct (nth_error (pr_layers st) k) as [s|] eqn:Es.
      2:{ exfalso. apply nth_error_None in Es. assert (k < length ls) by (apply nth_error_Some; congruence). apply Forall2_length in Hls. lia. }
      assert (HL : layer_ok (pr_caches st) s (torch, L)).
      { clear - Hls Ek Es. revert k Ek Es. induction Hls as [|a b la lb H HF IH]; intros [|k] Ek Es; cbn in *; try discriminate; [congruence|eauto]. }
      destruct HL as (E1 & E2 & pattern & E3). cbn [fst snd] in *. rewrite E1. specialize (Ht torch L eq_refl). destruct torch.
      + assert (Ef : fw_of (o_type x) = Some Torch) by (apply Ht; reflexivity). unfold known. rewrite Ef. exists st. split; [|exact Hi]. f_equal.
        rewrite (E3 (rtm library Torch o) (o_data x) (rt_good Torch o Ho) (rt_uni Torch o)). unfold call_layer. change (rt_framework (rtm library Torch o)) with (rt_framework (library Torch)). rewrite (proj1 (Hl Torch)).
        unfold torch_apply, recipe_for. cbn [ly_recipes ly_red ly_sizes]. rewrite dict_get_strip.
        destruct (dict_get Nat.eqb (length (shp (o_data x))) (sl_recipes s)) as [[i rec]|]; reflexivity.
      + apply with_backend_spec; [exact Hi|exact Hp|]. intros f st1 Ef Es1 Hi1.
        assert (Hnt : f <> Torch) by (intros ->; assert (false = true) by (apply Ht, Ef); discriminate).
        assert (Ec : call_layer (rtm library f o) L (o_data x) =
            mixin_apply (rtm library f o) (mkLayer pattern (sl_red s) (sl_sizes s) (map strip (sl_recipes s))) (o_data x)).
        { rewrite (E3 (rtm library f o) (o_data x) (rt_good f o Ho) (rt_uni f o)). unfold call_layer. change (rt_framework (rtm library f o)) with (rt_framework (library f)). rewrite (proj1 (Hl f)). destruct f; try reflexivity. contradiction. }
        rewrite Ec. unfold mixin_apply, recipe_for. cbn [ly_recipes ly_red ly_sizes]. rewrite dict_get_strip.
        destruct (dict_get Nat.eqb (length (shp (o_data x))) (sl_recipes s)) as [[i rec]|] eqn:Ed; [|eexists; split; [reflexivity|exact Hi1]].
        cbn [option_map of_option bind snd].
        apply dict_get_in in Ed as [n Ed].
        assert (Hm : nth_error (c_made (pr_caches st1)) i = Some rec) by (rewrite Es1; exact (proj1 (Forall_forall _ _) E2 _ Ed)).
        pose proof (cooked_keeps lim (rt_backend (library f)) (i, rec) (o_data x) (sl_sizes s) (pr_caches st1)) as K.
        destruct (cooked_for int_ops Z.eqb (fun _ : Z => true) lim (rt_backend (library f)) (i, rec) (o_data x) (sl_sizes s) (pr_caches st1)) as [kk c] eqn:Ecf.
        apply (cooked_for_spec int_ops Z.eqb zeq (fun _ => true) lim U) in Ecf as [Hr ->]; [|apply Hi1|exact Hm].
        eexists. split; [reflexivity|]. apply inv_caches; assumption.
    - destruct (nth_error (pr_layers st) k) as [s|] eqn:Es; [|eauto].
      exfalso. apply nth_error_None in Ek. assert (k < length (pr_layers st)) by (apply nth_error_Some; congruence). apply Forall2_length in Hls. lia.
  Qed.

  Lemma request_right ms ls st o q : inv ms ls st -> orders_ok o -> proper fw_of q ms ls ->
    exists st', do_request lim U fw_of build library lib_einsum o q st = (fst (answer_to U fw_of library lib_einsum o q ls), st') /\
      inv ms (snd (answer_to U fw_of library lib_einsum o q ls)) st'.
  Proof.
    intros Hi Ho Hq. destruct q as [x p red id sizes|x p|x|x|args|ts p|x ps p|f c|torch p sizes|torch p red id sizes|k x]; cbn [do_request answer_to proper fst snd] in *.
    - destruct Hq as (Hn & Hk & Hp). destruct (reduce_right ms ls st o x p red id sizes Hi Ho Hn Hk Hp) as (st' & -> & H). eauto.
    - unfold do_parse_shape. destruct (parse_expression U true false 0 p) as [pe|e]; cbn [bind]; [|eauto].
      destruct (with_backend_spec ms ls x st (fun f st0 => (parse_shape U (b_shape (rt_backend (library f)) (o_data x)) p, st0))
        (fun _ => parse_shape U (map Z.of_nat (shp (o_data x))) p) Hi Hq) as (st' & -> & H); [|eauto].
      intros f st1 _ _ H1. exists st1. split; [|exact H1]. unfold rt_backend. rewrite (proj1 (Hl f)). destruct f; reflexivity.
    - unfold do_directions.
      destruct (with_backend_spec ms ls x st (fun f st0 => (enumerate_directions int_ops (rt_backend (library f)) (o_data x), st0))
        (fun f => enumerate_directions int_ops (rt_backend (rtm library f o)) (o_data x)) Hi Hq) as (st' & -> & H); [|eauto].
      intros f st1 _ _ H1. exists st1. split; [reflexivity|exact H1].
    - unfold do_asnumpy.
      destruct (with_backend_spec ms ls x st (fun f st0 => (to_numpy f (o_data x), st0))
        (fun f => match f with Keras => Err NotImplementedError | _ => Ok (o_data x) end) Hi Hq) as (st' & -> & H); [|eauto].
      intros f st1 _ _ H1. exists st1. split; [reflexivity|exact H1].
    - destruct (einsum_right ms ls st args Hi Hq) as (st' & -> & H). eauto.
    - destruct (pack_right ms ls st o ts p Hi Hq) as (st' & -> & H). eauto.
    - destruct (unpack_right ms ls st o x ps p Hi Hq) as (st' & -> & H). eauto.
    - destruct (serve lim (rt library f o) c (pr_caches st)) as [v cs] eqn:E. pose proof (serve_keeps lim (rt library f o) c (pr_caches st)) as K. rewrite E in K.
      apply (serve_spec lim _ (rt_good f o Ho)) in E as [Hr ->]; [|exact Hq|rewrite rt_uni; apply Hi]. rewrite rt_uni in Hr.
      eexists. split; [reflexivity|]. apply inv_caches; assumption.
    - destruct (make_right ms ls st o torch [lit "self"; lit "pattern"] p (RStr s_rearrange) None sizes Hi Ho Hq) as (st' & -> & H); [discriminate|].
      unfold Rearrange, made. destruct (check_kwargs _ sizes) as [u|e]; cbn [bind] in *; [|eauto].
      destruct (make_layer U (fun _ => o) p (RStr s_rearrange) sizes) as [L|e]; cbn [bind fst snd] in *; eauto.
    - destruct Hq as [Hn Hk]. destruct (make_right ms ls st o torch [lit "self"; lit "pattern"; lit "reduction"] p red id sizes Hi Ho Hn Hk) as (st' & -> & H).
      unfold Reduce, made. destruct (check_kwargs _ sizes) as [u|e]; cbn [bind] in *; [|eauto].
      destruct (make_layer U (fun _ => o) p red sizes) as [L|e]; cbn [bind fst snd] in *; eauto.
    - destruct Hq as [Hp Ht]. destruct (use_right ms ls st o k x Hi Ho Hp Ht) as (st' & -> & H). eauto.
  Qed.

  Lemma happening_right ms ls st h : inv ms ls st -> proper_happening fw_of h ms ls ->
    exists a ms' ls' st', answer_for U fw_of library lib_einsum h ms ls = (a, ms', ls') /\
      happen lim U fw_of build library lib_einsum h st = (a, st') /\ inv ms' ls' st'.
  Proof.
    intros Hi Hh. destruct h as [ms'|b1 b2 b3 b4|o q]; cbn [answer_for happen proper_happening] in *.
    - do 4 eexists. split; [reflexivity|]. split; [reflexivity|]. destruct Hi as [I1 I2 I3]. split; cbn; [exact (reg_modules ms ms' _ I1)|exact I2|exact I3].
    - do 4 eexists. split; [reflexivity|]. split; [reflexivity|]. apply inv_caches; [exact Hi| |apply keeps_eq; reflexivity].
      apply (RC_clear int_ops Z.eqb lim U b1 b2 b3 b4), Hi.
    - destruct Hh as [Ho Hq]. destruct (request_right ms ls st o q Hi Ho Hq) as (st' & E & H).
      destruct (answer_to U fw_of library lib_einsum o q ls) as [a ls']. cbn [fst snd] in *. rewrite E. eauto 8.
  Qed.
  Lemma program_right p : forall ms ls st, inv ms ls st -> proper_program U fw_of library lib_einsum p ms ls ->
    run_program lim U fw_of build library lib_einsum p st = right_answers U fw_of library lib_einsum p ms ls.
  Proof.
    induction p as [|h next IH]; intros ms ls st Hi Hp; [reflexivity|]. cbn [run_program right_answers proper_program] in *. destruct Hp as [Hh Hp].
    destruct (happening_right ms ls st h Hi Hh) as (a & ms' & ls' & st' & Ea & Eh & Hi'). rewrite Ea in *. rewrite Eh. f_equal. apply (IH a ms' ls'); assumption.
  Qed.
  Lemma inv_new : inv [] [] new_process.
  Proof.
    split; cbn; [|constructor|constructor]. split; [|intros m []]. exists []. split; [reflexivity|]. intros roots y [].
  Qed.
End Session.

Lemma backend_right {A} (fw_of : nat -> option framework) build (es : list (event (T := object A))) (x : object A) (st : process A) :
  honest build -> pr_registry st = Registry.run o_type (accepts fw_of) build es fresh_registry ->
  (forall roots y, In (Get roots y) es -> roots = einops_backends) -> present fw_of (modules (pr_registry st)) x ->
  fst (backend_for fw_of build x st) = match fw_of (o_type x) with Some f => Ok f | None => Err RuntimeError end.
Proof.
  intros Hb Er He Hp. destruct (backend_for_spec fw_of build Hb (modules (pr_registry st)) x st) as (reg & E & _); [|exact Hp|rewrite E; reflexivity].
  split; [eauto|apply incl_refl].
Qed.

Section Theorems.
  Context {A : Type} (lim : limits) (U : unicode) (fw_of : nat -> option framework) (build : nat -> bclass -> list pystr -> option exn * list pystr).
  Context (library : framework -> runtime A) (lib_einsum : framework -> pystr -> list (tensor A) -> result (tensor A)).
  Lemma session_right p : honest build -> libraries_ok U library -> proper_program U fw_of library lib_einsum p [] [] ->
    run_program lim U fw_of build library lib_einsum p new_process = right_answers U fw_of library lib_einsum p [] [].
  Proof. intros Hb [HU Hl] Hp. apply program_right; auto. apply inv_new. Qed.

  Context (Hb : honest build) (Hl : libraries_ok U library).
  Lemma made_answer torch torch' o o' p red sizes reserved ls ls' : orders_ok o -> orders_ok o' -> NoDup (map fst sizes) -> torch = torch' ->
    fst (made torch (let* _ := check_kwargs reserved sizes in make_layer U (fun _ => o) p red sizes) ls) =
    fst (made (A := A) torch' (let* _ := check_kwargs reserved sizes in make_layer U (fun _ => o') p red sizes) ls').
  Proof.
    intros Ho Ho' Hn _. destruct (check_kwargs reserved sizes) as [u|e]; cbn [bind]; [|reflexivity].
    pose proof (make_reordered U (proj1 Hl) (fun _ => o) (fun _ => o') p red sizes sizes (fun _ => Ho) (fun _ => Ho') Hn (Permutation_refl _)) as G.
    destruct (make_layer U (fun _ => o) p red sizes), (make_layer U (fun _ => o') p red sizes); cbn in G |- *; try contradiction; congruence.
  Qed.
  Lemma answer_alone o o' q ms ls ms' ls' : orders_ok o -> orders_ok o' -> proper fw_of q ms ls -> proper fw_of q ms' ls' -> uses_layer q = false ->
    fst (answer_to U fw_of library lib_einsum o q ls) = fst (answer_to U fw_of library lib_einsum o' q ls').
  Proof.
    intros Ho Ho' Hq _ Hu. destruct Hl as [HU Hlib].
    assert (Hok : forall f, runtime_ok (rtm library f o)) by (intros f; split; [cbn; rewrite (proj2 (Hlib f)); exact HU|exact Ho]).
    destruct q as [x p red id sizes|x p|x|x|args|ts p|x ps p|f c|torch p sizes|torch p red id sizes|k x]; cbn [answer_to proper fst uses_layer] in *;
      [|reflexivity|reflexivity|reflexivity|reflexivity|reflexivity|reflexivity| | | |discriminate].
    - destruct Hq as (Hn & _ & _). apply (f_equal (fun v => GotOutcome (OutTensor v))). destruct (check_kwargs reserved_kwargs sizes) as [u|e]; cbn [bind]; [|reflexivity].
      destruct (first_of x) as [t|]; [|reflexivity]. unfold known. destruct (fw_of (o_type t)) as [f|]; [|reflexivity].
      destruct (orders_irrelevant _ (Hok f) o' sizes Ho' Hn (input_data x) p) as (_ & _ & H & _). apply H.
    - destruct c as [x p red id sizes|x p red id sizes|ts p|x ps p|ts p|x ps p|lib args]; cbn [compute call_ok] in *; [| |reflexivity|reflexivity|reflexivity|reflexivity|reflexivity];
        destruct Hq as [Hn _]; apply (f_equal (fun v => GotOutcome (OutTensor v)));
        destruct (orders_irrelevant _ (Hok f) o' sizes Ho' Hn x p) as (_ & _ & H & _ & _ & H'); [apply H|apply H'].
    - apply (made_answer torch torch); auto.
    - destruct Hq as [Hn _]. apply (made_answer torch torch); auto.
  Qed.
  Lemma history_last hs o q : forall ms ls, proper_program U fw_of library lib_einsum (history hs o q) ms ls ->
    exists ms' ls', orders_ok o /\ proper fw_of q ms' ls' /\ last (right_answers U fw_of library lib_einsum (history hs o q) ms ls) GotNothing = fst (answer_to U fw_of library lib_einsum o q ls').
  Proof.
    induction hs as [|h hs IH]; intros ms ls Hp.
    - cbn in Hp. destruct Hp as [[Ho Hp] _]. exists ms, ls. split; [exact Ho|]. split; [exact Hp|]. cbn. destruct (answer_to _ _ _ _ o q ls). reflexivity.
    - change (history (h :: hs) o q) with (Then h (fun _ => history hs o q)) in *. cbn [proper_program right_answers] in *. destruct Hp as [_ Hp].
      destruct (answer_for U fw_of library lib_einsum h ms ls) as [[a ms1] ls1]. destruct (IH ms1 ls1 Hp) as (ms' & ls' & H1 & H2 & H3).
      exists ms', ls'. split; [exact H1|]. split; [exact H2|]. rewrite <- H3.
      destruct (right_answers U fw_of library lib_einsum (history hs o q) ms1 ls1) as [|b l] eqn:E; [|reflexivity].
      exfalso. clear - E. destruct hs as [|h hs]; cbn in E; [destruct (answer_to _ _ _ _ o q ls1); discriminate|].
      destruct (answer_for _ _ _ _ h ms1 ls1) as [[x y] z]. discriminate.
  Qed.
  Lemma no_memory hs o hs' o' q : uses_layer q = false ->
    proper_program U fw_of library lib_einsum (history hs o q) [] [] -> proper_program U fw_of library lib_einsum (history hs' o' q) [] [] ->
    last (run_program lim U fw_of build library lib_einsum (history hs o q) new_process) GotNothing =
    last (run_program lim U fw_of build library lib_einsum (history hs' o' q) new_process) GotNothing.
  Proof.
    intros Hu H H'. rewrite !session_right by auto. destruct (history_last hs o q [] [] H) as (ms1 & ls1 & Ho1 & Hq1 & ->).
    destruct (history_last hs' o' q [] [] H') as (ms2 & ls2 & Ho2 & Hq2 & ->). eapply answer_alone; eauto.
  Qed.
End Theorems.
