(** * Cold caches: a plan that was not asked for before is made *)
From Verif Require Import Py ListFacts Tensor SpecGrammar SpecPattern SpecOps Parsing Recipe Ops Backends Api Packing Einsum ParseFacts ApiFacts6 LayerFacts Cache CacheFacts Work SpecWork WorkFacts WorkFacts2 WorkFacts3 WorkFacts4.

(** *** with lengths that are ints, nothing raises TypeError *)
Definition no_type_error {T} (m : result T) : Prop := m <> Err TypeError.
Lemma nte_bind {T S} (m : result T) (f : T -> result S) : no_type_error m -> (forall a, no_type_error (f a)) -> no_type_error (bind m f).
Proof. unfold no_type_error. destruct m as [a|e]; cbn; [auto|]. intros H _ E. apply H. congruence. Qed.
Lemma nte_mapM {T S} (f : T -> result S) l : (forall a, no_type_error (f a)) -> no_type_error (mapM f l).
Proof. intros Hf. induction l as [|a l IH]; cbn; [discriminate|]. apply nte_bind; [apply Hf|]. intros b. apply nte_bind; [exact IH|]. discriminate. Qed.
Lemma nte_foldM {T S} (f : T -> S -> result T) l : (forall a b, no_type_error (f a b)) -> forall acc, no_type_error (foldM f l acc).
Proof. intros Hf. induction l as [|b l IH]; intros acc; cbn; [discriminate|]. apply nte_bind; [apply Hf|exact IH]. Qed.
Lemma nte_get {T} (l : list T) i : no_type_error (list_get l i).
Proof. unfold list_get, of_option. destruct (nth_error l i); discriminate. Qed.
Lemma nte_upd {T} (l : list T) v : forall i, no_type_error (list_upd l i v).
Proof. induction l as [|a l IH]; intros [|i]; cbn; try discriminate. apply nte_bind; [apply IH|discriminate]. Qed.
Lemma nte_reconstruct rec (sh : list Z) (sz : list (pystr * Z)) : no_type_error (reconstruct int_ops rec sh sz).
Proof.
  unfold reconstruct. apply nte_bind.
  { apply nte_foldM. intros al [name d]. apply nte_bind; [unfold of_option; destruct (dict_get _ _ _); discriminate|]. intros p. apply nte_upd. }
  intros al. apply nte_bind.
  { apply nte_foldM. intros [al0 need] [i [known unknown]]. unfold infer_step. apply nte_bind; [apply nte_get|]. intros len.
    assert (G : no_type_error (let* ks := mapM (list_get al0) known in let kp := fold_left (d_mul int_ops) ks (d_of_Z int_ops 1) in
      let* al1 := match unknown with
        | [] => match both_ints int_ops len kp with Some (l, k) => if (l =? k)%Z then Ok al0 else Err EinopsError | None => Ok al0 end
        | u :: _ => let* _ := match both_ints int_ops len kp with Some (l, k) => if (k =? 0)%Z then Err ZeroDivisionError else raise_if (negb (l mod k =? 0)%Z) EinopsError | None => Ok tt end in
            let* q := d_floordiv int_ops len kp in list_upd al0 u q end in
      Ok (al1, if length known + length unknown =? 1 then need else true))).
    { apply nte_bind; [apply nte_mapM; intros a; apply nte_get|]. intros ks. cbv zeta. apply nte_bind; [|discriminate]. cbn [both_ints int_ops d_int d_floordiv]. destruct unknown as [|u us].
      - unfold both_ints, int_ops. cbn [d_int]. destruct (_ =? _)%Z; discriminate.
      - apply nte_bind.
        + unfold both_ints. cbn [d_int int_ops]. destruct (_ =? 0)%Z; [discriminate|]. unfold raise_if. destruct (negb _); discriminate.
        + intros _. apply nte_bind; [|intros q; apply nte_upd]. destruct (_ =? 0)%Z; discriminate. }
    destruct known as [|k0 known]; [|exact G]. destruct unknown as [|u [|u' us]]; [exact G| |exact G].
    apply nte_bind; [apply nte_upd|discriminate]. }
  intros [al1 need]. apply nte_bind; [apply nte_mapM; intros g; apply nte_mapM; intros a; apply nte_get|]. intros groups.
  apply nte_bind; [|discriminate]. apply nte_mapM. intros [p e]. apply nte_bind; [apply nte_get|discriminate].
Qed.

Section Cold.
  Context {A : Type} (lim : limits) (U : unicode) (HU : unicode_ok U).
  Implicit Types (h : list (event A)) (st : @caches Z).

  Record cold (plans : list (rkey * list Z * list (pystr * Z))) st : Prop := {
    co_keys : NoDup (map fst (c_recipes st));
    co_ids : forall k id rec k' rec', In (k, (id, rec)) (c_recipes st) -> In (k', (id, rec')) (c_recipes st) -> k = k';
    co_bound : forall k id rec, In (k, (id, rec)) (c_recipes st) -> id < length (c_made st);
    co_made : forall id sh sz, In (id, sh, sz) (map fst (c_cooked st)) -> id < length (c_made st);
    co_from : forall k id rec sh sz, In (k, (id, rec)) (c_recipes st) -> In (id, sh, sz) (map fst (c_cooked st)) -> In (k, sh, sz) plans }.
  Lemma cold_same plans st st' : same_plans st st' -> cold plans st' -> cold plans st.
  Proof. intros (E1 & E2 & E3) [W1 W2 W3 W4 W5]. split; rewrite ?E1, ?E2, ?E3; assumption. Qed.
  Lemma cold_more plans q st : cold plans st -> cold (q :: plans) st.
  Proof. intros [W1 W2 W3 W4 W5]. split; auto. intros. right. eauto. Qed.

  (** what lru does with the entries *)
  Lemma lru_entries {K V} (eqb : K -> K -> bool) (Heq : forall a b, eqb a b = true <-> a = b) m compute k (c : list (K * V)) : NoDup (map fst c) ->
    match lru eqb m compute k c with
    | (Ok v, c') => NoDup (map fst c') /\ (forall e, In e c' -> In e c \/ e = (k, v)) /\ (In k (map fst c) -> In (k, v) c) /\ (~ In k (map fst c) -> compute tt = Ok v)
    | (Err e, c') => c' = c /\ ~ In k (map fst c) /\ compute tt = Err e
    end.
  Proof.
    intros Hn. unfold lru. destruct (take_key eqb k c) as [[e rest]|] eqn:E.
    - assert (Hi : In k (map fst c)).
      { destruct (in_dec (key_dec eqb Heq) k (map fst c)) as [Hi|Hi]; [exact Hi|]. apply (take_none eqb Heq (fun _ => true)) in Hi. congruence. }
      destruct (take_found eqb Heq k c Hi) as (v & rest' & E' & Hv & Hs). rewrite E in E'. injection E' as -> ->. cbn [snd].
      split; [|split; [|split; [auto|contradiction]]].
      + destruct (take_some eqb Heq k c (k, v) rest' Hn E) as [_ E2]. cbn [map fst]. rewrite E2. constructor; [|apply without_NoDup, Hn].
        intros X. apply (in_without eqb Heq) in X as [_ X]. apply X. reflexivity.
      + intros e He. left. apply Hs, He.
    - apply (take_none eqb Heq (fun _ => true)) in E. destruct (compute tt) as [v|e] eqn:Ec; [|auto]. split; [|split; [|split; [intros X; contradiction|auto]]].
      + rewrite <- firstn_map. assert (D : NoDup (map fst ((k, v) :: c))) by (cbn [map fst]; constructor; assumption).
        rewrite <- (firstn_skipn m) in D. apply NoDup_app_iff in D. tauto.
      + intros e He. apply In_firstn' in He. destruct He as [<-|He]; auto.
  Qed.

  Lemma cold_prepare plans o k st : cold plans st ->
    cold plans (snd (cached_prepare lim U o k st)) /\
    match fst (cached_prepare lim U o k st) with
    | Ok (id, rec) => id < length (c_made (snd (cached_prepare lim U o k st))) /\
        (forall sh sz, In (id, sh, sz) (map fst (c_cooked st)) -> In (k, sh, sz) plans) /\
        (forall k' rec', In (k', (id, rec')) (c_recipes (snd (cached_prepare lim U o k st))) -> k' = k)
    | Err _ => True
    end /\ c_cooked (snd (cached_prepare lim U o k st)) = c_cooked st.
  Proof.
    intros [W1 W2 W3 W4 W5]. destruct k as [[[p op] ns] n]. unfold cached_prepare.
    set (k := (p, op, ns, n)) in *. set (compute := fun _ : unit => _).
    pose proof (lru_entries rkey_eqb rkey_eqb_eq (l_recipes lim) compute k (c_recipes st) W1) as L.
    destruct (lru rkey_eqb (l_recipes lim) compute k (c_recipes st)) as [[[id rec]|e] c]; cbn [fst snd c_recipes c_cooked c_made].
    - destruct L as (L1 & L2 & L3 & L4).
      destruct (in_dec (key_dec rkey_eqb rkey_eqb_eq) k (map fst (c_recipes st))) as [Hi|Hi].
      + destruct (take_found rkey_eqb rkey_eqb_eq k (c_recipes st) Hi) as (v & rest & -> & _). specialize (L3 Hi).
        assert (Hsub : forall e, In e c -> In e (c_recipes st)) by (intros e He; destruct (L2 e He) as [H| ->]; assumption).
        split; [split; cbn [c_recipes c_cooked c_made]; eauto|]. split; [|reflexivity]. split; [eauto|]. split; [eauto|]. intros k' rec' H. eapply W2; [apply Hsub, H|exact L3].
      + rewrite (proj2 (take_none rkey_eqb rkey_eqb_eq (fun _ => true) k (c_recipes st)) Hi). specialize (L4 Hi). unfold compute in L4.
        apply bind_Ok in L4 as [rec' [E0 E]]. injection E as <- <-.
        assert (Hno : forall sh sz, ~ In (length (c_made st), sh, sz) (map fst (c_cooked st))) by (intros sh sz H; apply W4 in H; lia).
        assert (Hnk : forall k' r', In (k', (length (c_made st), r')) c -> k' = k).
        { intros k' r' H. destruct (L2 _ H) as [H'|H']; [apply W3 in H'; lia|congruence]. }
        split; [|split; [|reflexivity]]; [split; cbn [c_recipes c_cooked c_made]; auto|].
        * intros k1 i1 r1 k2 r2 H1 H2. destruct (L2 _ H1) as [G1|G1], (L2 _ H2) as [G2|G2].
          -- eauto.
          -- injection G2 as -> -> ->. apply W3 in G1. lia.
          -- injection G1 as -> -> ->. apply W3 in G2. lia.
          -- congruence.
        * intros k1 i1 r1 H1. rewrite app_length. cbn [length]. destruct (L2 _ H1) as [G1|G1]; [apply W3 in G1; lia|]. injection G1 as -> -> ->. lia.
        * intros i sh sz H. rewrite app_length. cbn [length]. apply W4 in H. lia.
        * intros k1 i1 r1 sh sz H1 H2. destruct (L2 _ H1) as [G1|G1]; [eauto|]. injection G1 as -> -> ->. exfalso. exact (Hno _ _ H2).
        * split; [rewrite app_length; cbn [length]; lia|]. split; [|exact Hnk]. intros sh sz H. exfalso. exact (Hno _ _ H).
    - destruct L as (-> & Hi & _). split; [|split; [exact I|reflexivity]].
      destruct (take_key rkey_eqb k (c_recipes st)); split; cbn [c_recipes c_cooked c_made]; auto.
  Qed.

  Lemma cooked_entries id rec sh sz st : NoDup (map fst (c_cooked st)) ->
    let st' := snd (cached_reconstruct int_ops Z.eqb lim (id, rec) sh sz st) in
    c_recipes st' = c_recipes st /\ c_made st' = c_made st /\ NoDup (map fst (c_cooked st')) /\
    forall q, In q (map fst (c_cooked st')) -> In q (map fst (c_cooked st)) \/ q = (id, sh, sz).
  Proof.
    intros Hn. unfold cached_reconstruct. cbn [fst snd].
    pose proof (lru_entries (ckey_eqb Z.eqb) ckey_eqb_iff (l_cooked lim) (fun _ => reconstruct int_ops rec sh sz) (id, sh, sz) (c_cooked st) Hn) as L.
    destruct (lru (ckey_eqb Z.eqb) (l_cooked lim) (fun _ => reconstruct int_ops rec sh sz) (id, sh, sz) (c_cooked st)) as [[ck|e] c]; cbn [snd c_recipes c_made c_cooked].
    - destruct L as (L1 & L2 & _ & _). repeat split; auto. intros q H. apply in_map_iff in H as (e & <- & H). destruct (L2 e H) as [G| ->]; [left; apply in_map, G|right; reflexivity].
    - destruct L as (-> & _ & _). repeat split; auto.
  Qed.
  Lemma cold_reconstruct plans k id rec sh sz st : cold plans st -> NoDup (map fst (c_cooked st)) -> id < length (c_made st) ->
    (forall k' rec', In (k', (id, rec')) (c_recipes st) -> k' = k) ->
    cold ((k, sh, sz) :: plans) (snd (cached_reconstruct int_ops Z.eqb lim (id, rec) sh sz st)) /\ NoDup (map fst (c_cooked (snd (cached_reconstruct int_ops Z.eqb lim (id, rec) sh sz st)))).
  Proof.
    intros [W1 W2 W3 W4 W5] Hn Hid Hk. destruct (cooked_entries id rec sh sz st Hn) as (E1 & E2 & E3 & E4). split; [|exact E3]. split; rewrite ?E1, ?E2; auto.
    - intros i s z H. destruct (E4 _ H) as [G|G]; [eauto|]. injection G as -> -> ->. exact Hid.
    - intros k1 i1 r1 s z H1 H2. destruct (E4 _ H2) as [G|G]; [right; eauto|]. injection G as -> -> ->. apply Hk in H1. subst. left. reflexivity.
  Qed.

  Definition no_layer_used h : Prop := forall rec sh sz, ~ In (LayerUsed rec sh sz) h.
  Lemma cold_after h : Forall (event_ok U) h -> no_layer_used h -> cold (plan_requests h) (caches_after lim U h) /\ NoDup (map fst (c_cooked (caches_after lim U h))).
  Proof.
    induction h as [|e h IH]; intros F Hl; [split; [split; cbn; try constructor; intros; contradiction|constructor]|].
    inversion_clear F as [|? ? He Fh]. destruct (IH Fh (fun rec sh sz Hi => Hl rec sh sz (or_intror Hi))) as [C N].
    unfold plan_requests in *. cbn [requests caches_after]. destruct e as [r c|o k|rec shape sizes|b1 b2 b3 b4].
    - destruct He as [Hr EU]. pose proof (serve_plan lim U r c (caches_after lim U h) EU) as P. destruct (plan_asked r c) as [[[k sh] sz]|].
      + destruct P as [_ P]. pose proof (proj1 (proj2 P)) as EP. enough (H : cold ((k, sh, sz) :: plan_requests h) (after_plan lim U (rt_orders r) (k, sh, sz) (caches_after lim U h)) /\ NoDup (map fst (c_cooked (after_plan lim U (rt_orders r) (k, sh, sz) (caches_after lim U h))))).
        { destruct H as [H1 H2]. split; [apply (cold_same _ _ _ P), H1|]. unfold event_step. rewrite EP. exact H2. }
        unfold after_plan. destruct (cold_prepare _ (rt_orders r) k _ C) as (C' & G & EC).
        destruct (cached_prepare lim U (rt_orders r) k (caches_after lim U h)) as [[[id rec]|ex] st1]; cbn [fst snd] in *.
        * destruct G as (G1 & _ & G3). apply cold_reconstruct; auto. rewrite EC. exact N.
        * split; [apply cold_more, C'|]. rewrite EC. exact N.
      + destruct P as [_ P]. split; [apply (cold_same _ _ _ P), C|]. unfold event_step. rewrite (proj1 (proj2 P)). exact N.
    - destruct (cold_prepare _ o k _ C) as (C' & _ & EC). split; [exact C'|]. unfold event_step. rewrite EC. exact N.
    - exfalso. exact (Hl _ _ _ (or_introl eq_refl)).
    - destruct C as [W1 W2 W3 W4 W5]. split; [|cbn; destruct b2; [constructor|exact N]].
      split; cbn [c_recipes c_cooked c_made]; destruct b1, b2; cbn; auto; try constructor; intros; try contradiction; eauto.
  Qed.

  Lemma cook_cold id rec sh sz st : ~ In (id, sh, sz) (map fst (c_cooked st)) ->
    plans_in (cook_runs (id, rec) sh sz st) = [(sh, sz)] /\ plans_in (cooked_runs lim (id, rec) sh sz st) = [(sh, sz)].
  Proof.
    intros Hn. assert (E : cook_runs (id, rec) sh sz st = [Cooks id sh sz]).
    { unfold cook_runs, lru_runs. cbn [fst]. rewrite (proj2 (take_none (ckey_eqb Z.eqb) ckey_eqb_iff (fun _ => true) (id, sh, sz) (c_cooked st)) Hn). reflexivity. }
    unfold cooked_runs. rewrite E. split; [reflexivity|]. unfold cached_reconstruct, lru. cbn [fst snd].
    rewrite (proj2 (take_none (ckey_eqb Z.eqb) ckey_eqb_iff (fun _ => true) (id, sh, sz) (c_cooked st)) Hn).
    pose proof (nte_reconstruct rec sh sz) as T. unfold no_type_error in T. destruct (reconstruct int_ops rec sh sz) as [ck|[]]; try reflexivity. exfalso. apply T. reflexivity.
  Qed.
  Lemma plans_app l l' : plans_in (l ++ l') = plans_in l ++ plans_in l'.
  Proof. apply flat_map_app. Qed.
  Lemma no_plans k st : plans_in (prepare_runs k st) = [].
  Proof. unfold prepare_runs, lru_runs. destruct (take_key _ _ _); reflexivity. Qed.

  Lemma plans_when h (r : runtime A) c : Forall (event_ok U) h -> no_layer_used h -> runtime_ok r -> rt_unicode r = U ->
    match plan_asked r c with
    | Some (k, sh, sz) =>
        (~ recipe_accepted U k -> plans_in (runs lim r c (caches_after lim U h)) = []) /\
        (recipe_accepted U k -> ~ In (k, sh, sz) (plan_requests h) -> plans_in (runs lim r c (caches_after lim U h)) = [(sh, sz)])
    | None => plans_in (runs lim r c (caches_after lim U h)) = []
    end.
  Proof.
    intros F Hl Hr EU. destruct (cold_after h F Hl) as [C N]. set (st := caches_after lim U h) in *.
    assert (REF : forall k o, ~ recipe_accepted U k -> orders_ok o -> exists e st1, cached_prepare lim U o k st = (Err e, st1)).
    { intros k o Hk Ho.
      assert (V : In k (map fst (c_recipes st)) -> recipe_accepted U k).
      { destruct (keys_after lim U HU h F) as (EK & _ & _). unfold st. rewrite EK. intros X. apply In_firstn' in X. apply (in_recent rkey_eqb rkey_eqb_eq) in X as [_ X]. apply (recipe_ok_iff U HU), X. }
      unfold cached_prepare. destruct k as [[[p op] ns] n].
      pose proof (lru_entries rkey_eqb rkey_eqb_eq (l_recipes lim) (fun _ => let* rec := prepare_recipe U o p (op_of_key op) ns n in Ok (length (c_made st), rec)) (p, op, ns, n) (c_recipes st) (co_keys _ _ C)) as L.
      destruct (lru rkey_eqb _ _ _ _) as [[v|e] c']; [|eauto]. exfalso. destruct L as (_ & _ & L3 & L4).
      destruct (in_dec (key_dec rkey_eqb rkey_eqb_eq) (p, op, ns, n) (map fst (c_recipes st))) as [Hi|Hi]; [exact (Hk (V Hi))|].
      specialize (L4 Hi). cbn in L4. apply bind_Ok in L4 as [rec [E _]]. apply Hk. exists o, rec. auto. }
    assert (ACC : forall k o sh sz, recipe_accepted U k -> orders_ok o -> ~ In (k, sh, sz) (plan_requests h) -> exists id rec st1, cached_prepare lim U o k st = (Ok (id, rec), st1) /\ ~ In (id, sh, sz) (map fst (c_cooked st1))).
    { intros k o sh sz Hk Ho Hn. destruct (cold_prepare _ o k _ C) as (_ & G & EC). destruct (cached_prepare lim U o k st) as [[[id rec]|e] st1] eqn:E; cbn [fst snd] in *.
      - exists id, rec, st1. split; [reflexivity|]. rewrite EC. intros X. apply Hn. apply G, X.
      - exfalso. unfold cached_prepare in E. destruct k as [[[p op] ns] n].
        pose proof (lru_entries rkey_eqb rkey_eqb_eq (l_recipes lim) (fun _ => let* rec := prepare_recipe U o p (op_of_key op) ns n in Ok (length (c_made st), rec)) (p, op, ns, n) (c_recipes st) (co_keys _ _ C)) as L.
        destruct (lru rkey_eqb _ _ _ _) as [[v|e'] c']; [discriminate|]. destruct L as (_ & _ & L). apply (recipe_ok_iff U HU) in Hk. rewrite (recipe_ok_any U HU o p op ns n Ho) in Hk.
        destruct (prepare_recipe U o p (op_of_key op) ns n); discriminate. }
    destruct c as [x p red i sizes|x p red i sizes|ts p|x ps p|ts p|x ps p|lib args]; unfold plan_asked; cbn [recipe_asked runs].
    - unfold reduce_runs. destruct (check_kwargs reserved_kwargs sizes) as [u|]; cbn [bind]; [|reflexivity]. destruct (stack_input (rt_backend r) x) as [t|]; [|reflexivity].
      destruct (opkey_of red i) as [op|]; [|reflexivity]. rewrite EU, shape_rank, plans_app, no_plans. cbn [app]. rewrite shape_ints. split.
      + intros Hk. destruct (REF _ (rt_orders r) Hk (ro_orders _ Hr)) as (e & st1 & ->). reflexivity.
      + intros Hk Hn. destruct (ACC _ (rt_orders r) _ _ Hk (ro_orders _ Hr) Hn) as (id & rec & st1 & -> & Hc). apply cook_cold, Hc.
    - unfold xp_reduce_runs. destruct (check_kwargs reserved_kwargs sizes) as [u|]; cbn [bind]; [|reflexivity]. destruct (stack_input_array_api (rt_ns r) x) as [t|]; [|reflexivity].
      destruct (opkey_of red i) as [op|]; [|reflexivity]. rewrite EU, xp_rank, plans_app, no_plans. cbn [app]. change (xp_shape (rt_ns r) t) with (map Z.of_nat (shp t)). split.
      + intros Hk. destruct (REF _ (rt_orders r) Hk (ro_orders _ Hr)) as (e & st1 & ->). reflexivity.
      + intros Hk Hn. destruct (ACC _ (rt_orders r) _ _ Hk (ro_orders _ Hr) Hn) as (id & rec & st1 & -> & Hc). apply cook_cold, Hc.
    - unfold analyze_runs, lru_runs. destruct (take_key _ _ _); reflexivity.
    - unfold analyze_runs, lru_runs. destruct (take_key _ _ _); reflexivity.
    - unfold analyze_runs, lru_runs. destruct (take_key _ _ _); reflexivity.
    - unfold analyze_runs, lru_runs. destruct (take_key _ _ _); reflexivity.
    - unfold einsum_runs. destruct (last args (inr [])) as [t|p]; [reflexivity|]. destruct (length args <=? 1); [reflexivity|].
      unfold compact_runs, lru_runs. destruct (take_key _ _ _); reflexivity.
  Qed.
End Cold.
