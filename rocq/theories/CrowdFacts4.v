(** * Calls in several threads: they end; calls that are not interrupted *)
From Verif Require Import Py Tensor Parsing Recipe Ops Backends Api ApiFacts6 Packing Einsum Registry SpecGrammar SpecRegistry RegistryFacts Cache CacheFacts
  Layers ListFacts ParseFacts Session SpecSession SessionFacts Threads SpecThreads ThreadFacts CacheThreads CacheThreadFacts Crowd SpecCrowd CrowdFacts CrowdFacts2 CrowdFacts3.

(** ** what calls look like when they start *)
Section Shapes.
  Context {A : Type} (U : unicode) (library : framework -> runtime A) (lib_einsum : framework -> pystr -> list (tensor A) -> result (tensor A)).
  (** [t] ends after at most [n] steps, and asks for the backend of [who] only *)
  Fixpoint shape (who : option (object A)) (t : task A) (n : nat) : Prop :=
    match t with
    | Done _ _ => True
    | Access a go => exists m, S m <= n /\ forall v, shape who (go v) m
    | Ask p go => (exists x, who = Some x /\ p = AtStart einops_backends x) /\ exists m, 65 + m <= n /\ forall r, shape who (go r) m
    end.
  Lemma shape_ask {V} x (wrap : result V -> answer A) go n m : 65 + m <= n -> (forall f, shape (Some x) (go f) m) -> shape (Some x) (ask x wrap go) n.
  Proof. intros Hn H. cbn [ask shape]. split; [exists x; auto|]. exists m. split; [exact Hn|]. intros [f|e]; [apply H|exact I]. Qed.
  Lemma shape_more who t : forall n m, n <= m -> shape who t n -> shape who t m.
  Proof.
    destruct t as [a L|X a go|p go]; intros n m Hn H; cbn in *; [exact I| |].
    - destruct H as (k & H1 & H2). exists k. split; [lia|exact H2].
    - destruct H as (H0 & k & H1 & H2). split; [exact H0|]. exists k. split; [lia|exact H2].
  Qed.
  Lemma shape_memo {V} who (lk : access (option V)) v keep go n m : 2 + m <= n -> (forall r, shape who (go r) m) -> shape who (memo lk v keep go) n.
  Proof.
    intros Hn H. unfold memo. cbn [shape]. exists (S m). split; [lia|]. intros [w|].
    - apply (shape_more who (go (Ok w)) m); [lia|apply H].
    - destruct v as [w|e]; [|apply (shape_more who (go (Err e)) m); [lia|apply H]]. cbn [shape]. exists m. split; [lia|]. intros _. apply H.
  Qed.
  Lemma shape_prepared who o k go n m : 2 + m <= n -> (forall r, shape who (go r) m) -> shape who (prepared U o k go) n.
  Proof.
    intros Hn H. unfold prepared. cbn [shape]. exists (S m). split; [lia|]. intros [w|].
    - apply (shape_more who (go (Ok w)) m); [lia|apply H].
    - destruct k as [[[p op] ns] d]. destruct (prepare_recipe U o p (op_of_key op) ns d) as [rec|e]; [|apply (shape_more who (go (Err e)) m); [lia|apply H]].
      cbn [shape]. exists m. split; [lia|]. intros v. apply H.
  Qed.
  Lemma shape_dims who o pattern op names dims : forall go n m, 2 * length dims + m <= n -> (forall r, shape who (go r) m) -> shape who (prepared_dims U o pattern op names dims go) n.
  Proof.
    induction dims as [|d dims IH]; intros go n m Hn H; cbn [prepared_dims length] in *; [apply (shape_more who _ m); [lia|apply H]|].
    apply (shape_prepared who o _ _ n (2 * length dims + m)); [lia|]. intros [rec|e].
    - apply (IH _ _ m); [lia|]. intros r. apply H.
    - apply (shape_more who _ m); [lia|apply H].
  Qed.
  Lemma dims_few lft : length (dims_of_left lft) <= 8.
  Proof. unfold dims_of_left. destruct (p_has_ellipsis lft); [rewrite map_length, seq_length|cbn]; lia. Qed.
  (** calls that have their backend *)
  Fixpoint short (p : rest A) (n : nat) : Prop :=
    match p with
    | Return _ => True
    | FindRecipe _ go => exists m, S m <= n /\ forall v, short (go v) m
    | StoreRecipe _ _ go => exists m, S m <= n /\ forall v, short (go v) m
    | FindCooked _ go => exists m, S m <= n /\ forall v, short (go v) m
    | StoreCooked _ _ go => exists m, S m <= n /\ short go m
    | FindAnalyzed _ go => exists m, S m <= n /\ forall v, short (go v) m
    | StoreAnalyzed _ _ go => exists m, S m <= n /\ short go m
    | FindCompact _ go => exists m, S m <= n /\ forall v, short (go v) m
    | StoreCompact _ _ go => exists m, S m <= n /\ short go m
    end.
  Lemma shape_rest who p : forall n, short p n -> shape who (of_rest p) n.
  Proof.
    induction p as [w|k go IH|k rec go IH|k go IH|k v go IH|k go IH|k w go IH|k go IH|k w go IH]; intros n H; cbn in *; [exact I|..];
      destruct H as (m & H1 & H2); exists m; (split; [exact H1|]); intros v'; auto.
  Qed.
  Lemma short_reduction (r : runtime A) input shape retry finish pattern op sizes : short (reduction_call r input shape retry finish pattern op sizes) 4.
  Proof.
    revert input shape retry finish pattern op sizes.
    { intros input sh retry fin pattern op sizes. unfold reduction_call. destruct input as [x|e]; [|exact I]. destruct op as [op|]; [|exact I].
      assert (Ck : forall rec go, (forall k, short (go k) 0) -> short (get_cooked rec (sh x) sizes go) 2).
      { intros rec go H. unfold get_cooked. cbn [short]. exists 1. split; [lia|]. intros [v|].
        - specialize (H (Ok v)). destruct (go (Ok v)) eqn:E; cbn in *; try (destruct H as (m & H1 & _); lia); exact I.
        - destruct (reconstruct int_ops (snd rec) (sh x) sizes) as [v|e].
          + cbn [short]. exists 0. split; [lia|]. apply H.
          + specialize (H (Err e)). destruct (go (Err e)) eqn:E; cbn in *; try (destruct H as (m & H1 & _); lia); exact I. }
      unfold get_recipe. cbn [short]. exists 3. split; [lia|]. intros [v|].
      - apply (fun H => H). pose proof (Ck v (fun k => Return (OutTensor (let* k := match k with Err TypeError => if retry then reconstruct int_ops (snd v) (sh x) sizes else k | _ => k end in fin k x))) (fun _ => I)) as H.
        cbn in H |- *. destruct H as (m & H1 & H2). exists m. split; [lia|exact H2].
      - destruct (prepare_recipe _ _ _ _ _ _) as [rec|e]; [|exact I]. cbn [short]. exists 2. split; [lia|]. intros v. apply Ck. intros k. exact I. }
  Qed.
  Lemma short_begin r (c : call A) : short (begin r c) 4.
  Proof.
    destruct c as [x p red id sizes|x p red id sizes|ts p|x ps p|ts p|x ps p|lib args]; cbn [begin]; try apply short_reduction.
    1-4: unfold get_analyzed; cbn [short]; exists 3; (split; [lia|]); intros [v|]; [exact I|]; destruct (analyze_pattern _ _) as [v|e]; [|exact I]; cbn [short]; exists 2; (split; [lia|exact I]).
    destruct (last args (inr [])); [exact I|]. destruct (length args <=? 1); [exact I|].
    unfold get_compact. cbn [short]. exists 3. split; [lia|]. intros [v|]; [exact I|]. destruct (compactify _ _) as [v|e]; [|exact I]. cbn [short]. exists 2. split; [lia|exact I].
  Qed.

  Notation layer_by := (layer_by U library lib_einsum).
  Lemma start_shape fw_of o q calls pick t :
    (forall k s, pick k = Some s -> exists l, layer_by fw_of calls k = [l] /\ sl_torch s = fst l) ->
    start U library lib_einsum o q pick = Some t -> shape (asks U library lib_einsum calls q) t 69.
  Proof.
    intros Hp E. destruct q as [x p red id sizes|x p|x|x|args|ts p|x ps p|f c|torch p sizes|torch p red id sizes|k x]; cbn [start] in E; try (injection E as <-); unfold SpecCrowd.asks.
    - destruct (check_kwargs reserved_kwargs sizes); [|exact I]. destruct (first_of x) as [y|]; [|exact I]. apply (shape_ask y _ _ 69 4); [lia|].
      intros f. apply shape_rest. apply short_reduction.
    - destruct (parse_expression U true false 0 p); [|exact I]. apply (shape_ask x _ _ 69 0); [lia|]. intros f. exact I.
    - apply (shape_ask x _ _ 69 0); [lia|]. intros f. exact I.
    - apply (shape_ask x _ _ 69 0); [lia|]. intros f. exact I.
    - unfold start_einsum. destruct args as [|a [|b args]]; [exact I|exact I|]. change (length (a :: b :: args) <=? 1) with false. cbv iota.
      destruct (last (a :: b :: args) (inr [])); [exact I|]. apply (shape_memo _ _ _ _ _ 69 65); [lia|]. intros [c|e]; [|exact I].
      change (removelast (a :: b :: args)) with (a :: removelast (b :: args)). destruct a as [x|s]; [|exact I]. apply (shape_ask x _ _ 65 0); [lia|]. intros f. exact I.
    - unfold start_pack. apply (shape_memo _ _ _ _ _ 69 65); [lia|]. intros [c|e]; [|exact I]. destruct ts as [|x ts]; [exact I|]. apply (shape_ask x _ _ 65 0); [lia|]. intros f. exact I.
    - unfold start_unpack. apply (shape_memo _ _ _ _ _ 69 65); [lia|]. intros [c|e]; [|exact I]. apply (shape_ask x _ _ 65 0); [lia|]. intros f. exact I.
    - apply (shape_more _ _ 4); [lia|]. apply shape_rest, short_begin.
    - unfold start_make. destruct (check_kwargs _ sizes); [|exact I]. destruct (opkey_of _ None) as [op|]; [|exact I]. unfold prepared_all_dims.
      destruct (str_split s_arrow p) as [|l [|rr [|? ?]]]; try exact I. destruct (parse_expression U false false 0 l) as [[lft k]|e]; [|exact I].
      apply (shape_dims _ _ _ _ _ _ _ 69 0); [pose proof (dims_few lft); lia|]. intros [recs|e]; exact I.
    - unfold start_make. destruct (check_kwargs _ sizes); [|exact I]. destruct (opkey_of red id) as [op|]; [|exact I]. unfold prepared_all_dims.
      destruct (str_split s_arrow p) as [|l [|rr [|? ?]]]; try exact I. destruct (parse_expression U false false 0 l) as [[lft k]|e]; [|exact I].
      apply (shape_dims _ _ _ _ _ _ _ 69 0); [pose proof (dims_few lft); lia|]. intros [recs|e]; exact I.
    - destruct (pick k) as [s|] eqn:Ek; [|discriminate]. injection E as <-. destruct (Hp k s Ek) as ([torch L] & El & Et). cbn in Et.
      rewrite (layer_by_any U library lib_einsum (fun _ => None) fw_of), El. unfold start_use. rewrite Et. destruct torch; [exact I|].
      apply (shape_ask x _ _ 69 2); [lia|]. intros f. destruct (of_option KeyError _); [|exact I]. apply (shape_memo _ _ _ _ _ 2 0); [lia|]. intros r. exact I.
  Qed.
End Shapes.

(** ** steps are used up *)
Lemma put_key_keys {V} k (v : V) (d : list (pystr * V)) : NoDup (map fst d) -> NoDup (map fst (put_key str_eqb k v d)).
Proof.
  assert (Hin : forall d, incl (map fst (put_key str_eqb k v d)) (k :: map fst d)).
  { clear. intros d. induction d as [|[k' v'] d IH]; cbn; [apply incl_refl|]. destruct (str_eqb k k'); cbn; [apply incl_tl, incl_refl|].
    intros a [<-|I]; [right; left; reflexivity|]. destruct (IH a I) as [<-|J]; [left; reflexivity|right; right; exact J]. }
  induction d as [|[k' v'] d IH]; intros H; cbn; [constructor; [intros []|constructor]|]. inversion H as [|? ? H1 H2]; subst.
  destruct (str_eqb k k') eqn:E; cbn; [constructor; assumption|]. constructor; [|apply IH, H2]. intros I. destruct (Hin d _ I) as [<-|J]; [|contradiction].
  rewrite (proj2 (str_eqb_iff k k) eq_refl) in E. discriminate.
Qed.
Section Steps.
  Context {A : Type} (fw_of : nat -> option framework) (build : nat -> bclass -> list pystr -> option exn * list pystr).
  Implicit Types (reg : registry) (p : point (object A)).
  Lemma advance_keys p reg : NoDup (map fst (loaded reg)) -> NoDup (map fst (loaded (snd (advance o_type (accepts fw_of) build p reg)))).
  Proof. intros H. destruct (advance_loaded o_type (accepts fw_of) build p reg) as [->|(x & b & cs & _ & ->)]; [exact H|apply put_key_keys, H]. Qed.
  Lemma loaded_few reg : reg_fine (A := A) fw_of reg -> NoDup (map fst (loaded reg)) -> length (loaded reg) <= 10.
  Proof.
    intros [H _] Hn. rewrite <- (map_length fst). apply (NoDup_incl_length (l' := map c_framework ours) Hn).
    intros fw I. apply in_map_iff in I as ([fw' b] & E & I). cbn in E. subst fw'. destruct (H _ _ I) as [-> O]. apply in_map, O.
  Qed.
  Definition cost p : nat :=
    match p with
    | AtStart _ _ => 65 | AtList _ _ => 64
    | Scanning _ _ items => length items + 53
    | Looking _ cs => 5 * length cs + 2
    | Checking _ _ cs => 5 * length cs + 6 | Building _ _ cs => 5 * length cs + 5 | Storing _ _ cs => 5 * length cs + 4 | Testing _ _ cs => 5 * length cs + 3
    | Finished _ _ => 1
    end.
  Lemma advance_cost p reg : length (loaded reg) <= 10 -> placed fw_of p reg -> (forall x r, p <> Finished x r) ->
    cost (fst (advance o_type (accepts fw_of) build p reg)) < cost p.
  Proof.
    intros Hl Hp Hf. destruct p as [roots x|roots x|roots x [|[fw b] items]|x [|c cs]|x c cs|x c cs|x b cs|x b cs|x r]; cbn [Threads.advance].
    - destruct (find_key _ _ _); cbn; lia.
    - cbn. lia.
    - destruct Hp as [-> _]. cbn. lia.
    - destruct (accepts _ _ _); cbn; lia.
    - cbn. lia.
    - destruct (find_key _ _ _); cbn; lia.
    - destruct (str_mem _ _); cbn; lia.
    - destruct (construct build c reg) as [reg' [b|e]]; cbn; lia.
    - cbn. lia.
    - destruct (accepts _ _ _); cbn; lia.
    - exfalso. exact (Hf x r eq_refl).
  Qed.
  (** a call that runs *)
  Definition running who (t : task A) (n : nat) : Prop :=
    match t with Ask p go => who = Some (subject p) /\ exists m, cost p + m <= n /\ forall r, shape who (go r) m | _ => shape who t n end.
  Lemma shape_running who t n : shape who t n -> running who t n.
  Proof.
    destruct t as [a L|X a go|p go]; cbn; auto. intros ((x & -> & ->) & m & H1 & H2). split; [reflexivity|]. exists m. auto.
  Qed.
  Lemma proceed_running lim who t n reg st t' reg' st' : running who t n -> length (loaded reg) <= 10 ->
    match t with Ask p _ => placed fw_of p reg | _ => True end ->
    proceed lim fw_of build t reg st = (t', reg', st') -> running who t' (pred n) /\ (n = 0 -> exists a L, t = Done a L).
  Proof.
    intros H Hl Hp E. destruct t as [a L|X a go|p go]; cbn [Crowd.proceed] in E.
    - injection E as <- <- <-. split; [exact I|eauto].
    - cbn in H. destruct H as (m & H1 & H2). destruct (perform lim a st) as [v c]. injection E as <- <- <-. split; [|lia].
      apply shape_running, (shape_more who _ m); [lia|apply H2].
    - cbn [running] in H. destruct H as (Hw & m & H1 & H2).
      assert (Hc : 0 < cost p) by (destruct p; cbn; lia). split; [|lia].
      assert (Adv : (forall x r, p <> Finished x r) -> (let '(p', reg2) := advance o_type (accepts fw_of) build p reg in (Ask p' go, reg2, st)) = (t', reg', st') -> running who t' (pred n)).
      { intros Hf E'. pose proof (advance_cost p reg Hl Hp Hf) as Hlt. pose proof (advance_subject fw_of build p reg) as Es.
        destruct (advance o_type (accepts fw_of) build p reg) as [p' reg2]. injection E' as <- <- <-. cbn [fst running] in *. split; [congruence|]. exists m. split; [lia|exact H2]. }
      destruct p; try (apply Adv; [discriminate|exact E]). injection E as <- <- <-. cbn in H1. apply shape_running, (shape_more who _ m); [lia|apply H2].
  Qed.
End Steps.

Section Ends.
  Context {A : Type} (lim : limits) (U : unicode) (fw_of : nat -> option framework) (build : nat -> bclass -> list pystr -> option exn * list pystr).
  Context (library : framework -> runtime A) (lib_einsum : framework -> pystr -> list (tensor A) -> result (tensor A)).
  Context (Hb : honest build) (Hlib : libraries_ok U library).
  Notation occurs := (occurs lim U fw_of build library lib_einsum).
  Notation history := (history lim U fw_of build library lib_einsum).
  Notation asks := (asks U library lib_einsum).
  Notation all_fine := (all_fine U fw_of library lib_einsum).
  Implicit Types (o : orders) (q : request A) (s : crowd A) (e : occasion A) (es : list (occasion A)).
  Definition keys_once s : Prop := NoDup (map fst (loaded (cr_registry s))).
  Lemma occurs_keys s e : keys_once s -> keys_once (occurs s e).
  Proof.
    unfold keys_once. intros H. destruct e as [o q|i|ms|b1 b2 b3 b4]; cbn [Crowd.occurs]; [destruct (start _ _ _ _ _ _); exact H| |exact H|exact H].
    destruct (nth_error (cr_calls s) i) as [[oq t]|]; [|exact H]. destruct (proceed lim fw_of build t (cr_registry s) (cr_caches s)) as [[t' reg'] st'] eqn:E. cbn.
    destruct t as [a L|X a go|p go]; cbn [Crowd.proceed] in E; [injection E as <- <- <-; exact H|destruct (perform lim a (cr_caches s)); injection E as <- <- <-; exact H|].
    pose proof (advance_keys fw_of build p (cr_registry s) H) as K.
    destruct p; try (destruct (advance o_type (accepts fw_of) build _ (cr_registry s)) as [p' reg2]; injection E as <- <- <-; exact K). injection E as <- <- <-. exact H.
  Qed.
  Lemma history_keys es : forall s, keys_once s -> keys_once (history es s).
  Proof. induction es as [|e es IH]; intros s H; [exact H|]. apply IH, occurs_keys, H. Qed.
  Lemma asking_placed s i o q p go : all_fine s -> nth_error (cr_calls s) i = Some (o, q, Ask p go) -> placed fw_of p (cr_registry s).
  Proof. intros [_ _ H] E. destruct (proj1 (Forall_forall _ _) H _ (nth_error_In _ _ E)) as [_ [[F _] _]]. exact F. Qed.

  Lemma runs_out who i es : forall s o q t n, all_fine s -> keys_once s -> (forall e, In e es -> event_ok e) -> nth_error (cr_calls s) i = Some (o, q, t) -> running who t n -> n <= moves i es ->
    exists a L, nth_error (cr_calls (history es s)) i = Some (o, q, Done a L).
  Proof.
    induction es as [|e es IH]; intros s o q t n Hs Hk He Hi Hr Hn.
    - cbn in Hn. assert (n = 0) by lia. subst n. destruct t as [a L|X a go|p go]; cbn in *; [eauto|destruct Hr as (m & H1 & _); lia|].
      destruct Hr as (_ & m & H1 & _). assert (0 < cost p) by (destruct p; cbn; lia). lia.
    - cbn [Crowd.history fold_left]. assert (Hee : event_ok e) by (apply He; left; reflexivity).
      assert (Hes : forall e', In e' es -> event_ok e') by (intros e' I; apply He; right; exact I).
      pose proof (proj1 (occurs_steps lim U fw_of build library lib_einsum Hb Hlib s e Hs Hee)) as Hs'. pose proof (occurs_keys s e Hk) as Hk'.
      assert (Same : nth_error (cr_calls (occurs s e)) i = Some (o, q, t) -> n <= moves i es -> exists a L, nth_error (cr_calls (history es (occurs s e))) i = Some (o, q, Done a L)).
      { intros N M. eapply IH; eassumption. }
      destruct e as [o' q'|j|ms|b1 b2 b3 b4]; [| |apply Same; [exact Hi|exact Hn]|apply Same; [exact Hi|exact Hn]].
      + apply Same; [|exact Hn]. cbn [Crowd.occurs]. destruct (start U library lib_einsum o' q' (layer_made s)); [|exact Hi]. cbn [cr_calls].
        rewrite nth_error_app1; [exact Hi|]. apply nth_error_Some. congruence.
      + unfold moves in Hn. cbn [filter] in Hn. destruct (Nat.eqb_spec i j) as [<-|Hij].
        * cbn [length] in Hn. cbn [Crowd.occurs] in *. rewrite Hi in *. destruct (proceed lim fw_of build t (cr_registry s) (cr_caches s)) as [[t' reg'] st'] eqn:Ep.
          destruct (proceed_running fw_of build lim who t n (cr_registry s) (cr_caches s) t' reg' st' Hr) as [R _]; [| |exact Ep|].
          { apply (loaded_few (A := A) fw_of); [apply Hs|exact Hk]. }
          { destruct t as [| |p go]; try exact I. eapply asking_placed; eassumption. }
          eapply (IH _ o q t' (pred n)); [exact Hs'|exact Hk'|exact Hes| |exact R|unfold moves; lia].
          cbn [cr_calls]. rewrite nth_update by (apply nth_error_Some; congruence). rewrite Nat.eqb_refl. reflexivity.
        * apply Same; [|exact Hn]. cbn [Crowd.occurs]. destruct (nth_error (cr_calls s) j) as [[oq t0]|] eqn:Ej; [|exact Hi].
          destruct (proceed lim fw_of build t0 (cr_registry s) (cr_caches s)) as [[t' reg'] st']. cbn [cr_calls]. rewrite nth_update by (apply nth_error_Some; congruence).
          destruct (Nat.eqb_spec j i); [congruence|exact Hi].
  Qed.
  Lemma entered es o q : decent_events es -> let s := history es nobody in let s1 := occurs s (Enter o q) in
    length (cr_calls s1) = S (length (cr_calls s)) ->
    exists t, nth_error (cr_calls s1) (length (cr_calls s)) = Some (o, q, t) /\ start U library lib_einsum o q (layer_made s) = Some t /\
      cr_registry s1 = cr_registry s /\ cr_caches s1 = cr_caches s /\ map fst (cr_calls s1) = map fst (cr_calls s) ++ [(o, q)] /\ shape (asks (map fst (cr_calls s)) q) t 69.
  Proof.
    intros He s s1 Hst. pose proof (history_fine lim U fw_of build library lib_einsum Hb Hlib es nobody (nobody_fine U fw_of library lib_einsum) (events_ok es He)) as Hs.
    change (Crowd.history lim U fw_of build library lib_einsum es nobody) with s in Hs. unfold s1 in *. cbn [Crowd.occurs] in *.
    destruct (start U library lib_einsum o q (layer_made s)) as [t|] eqn:Et; [|lia]. exists t. cbn [cr_calls cr_registry cr_caches].
    rewrite nth_error_app2, Nat.sub_diag by lia. split; [reflexivity|]. split; [reflexivity|]. split; [reflexivity|]. split; [reflexivity|]. split; [apply map_app|].
    eapply (start_shape U library lib_einsum fw_of); [|exact Et]. intros k L El.
    destruct (layer_made_held U fw_of library lib_einsum s k L Hs El) as (_ & l & H1 & H2 & _). exists l. auto.
  Qed.
  Theorem ends es o q es' : decent_events (es ++ Enter o q :: es') ->
    let s := history es nobody in let s1 := occurs s (Enter o q) in
    length (cr_calls s1) = S (length (cr_calls s)) -> 69 <= moves (length (cr_calls s)) es' ->
    exists a L, nth_error (cr_calls (history es' s1)) (length (cr_calls s)) = Some (o, q, Done a L).
  Proof.
    intros He s s1 Hst Hm.
    assert (Hes : decent_events es) by (intros o' q' I; apply He, in_or_app; left; exact I).
    assert (He' : decent_events es') by (intros o' q' I; apply He, in_or_app; right; right; exact I).
    assert (Hoq : orders_ok o /\ decent q) by (apply He, in_or_app; right; left; reflexivity).
    destruct (entered es o q Hes Hst) as (t & Hi & _ & _ & _ & _ & Hsh).
    pose proof (history_fine lim U fw_of build library lib_einsum Hb Hlib es nobody (nobody_fine U fw_of library lib_einsum) (events_ok es Hes)) as Hs.
    apply (runs_out _ _ es' s1 o q t 69) with (5 := shape_running _ _ _ Hsh); [|apply occurs_keys, history_keys; constructor|apply events_ok, He'|exact Hi|exact Hm].
    exact (proj1 (occurs_steps lim U fw_of build library lib_einsum Hb Hlib s (Enter o q) Hs Hoq)).
  Qed.
End Ends.
