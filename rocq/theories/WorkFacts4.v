(** * Warm caches: a repeated call runs none of the cached functions *)
From Verif Require Import Py ListFacts Tensor SpecGrammar SpecPattern SpecOps Parsing Recipe Ops Backends Api Packing Einsum ParseFacts ApiFacts6 LayerFacts Cache CacheFacts Work SpecWork WorkFacts WorkFacts2 WorkFacts3.

Lemma key_fun {K V} (k : K) (c : list (K * V)) v1 v2 : NoDup (map fst c) -> In (k, v1) c -> In (k, v2) c -> v1 = v2.
Proof.
  induction c as [|[a b] c IH]; intros Hn H1 H2; [destruct H1|]. cbn in Hn. inversion_clear Hn as [|? ? N1 N2].
  destruct H1 as [H1|H1], H2 as [H2|H2]; [congruence| | |auto].
  - injection H1 as -> ->. exfalso. apply N1. apply in_map_iff. exists (k, v2). auto.
  - injection H2 as -> ->. exfalso. apply N1. apply in_map_iff. exists (k, v1). auto.
Qed.

Section Take.
  Context {K V : Type} (eqb : K -> K -> bool) (Heq : forall a b, eqb a b = true <-> a = b).
  Lemma take_found k (c : list (K * V)) : In k (map fst c) -> exists v rest, take_key eqb k c = Some ((k, v), rest) /\ In (k, v) c /\ forall e, In e ((k, v) :: rest) <-> In e c.
  Proof.
    induction c as [|[k' v'] c IH]; cbn; [intros []|]. destruct (eqb k k') eqn:E.
    - apply Heq in E. subst k'. intros _. exists v', c. split; [reflexivity|]. split; [left; reflexivity|]. intros e. reflexivity.
    - intros [->|H]; [rewrite (proj2 (Heq k k) eq_refl) in E; discriminate|]. destruct (IH H) as (v & rest & -> & Hi & Hs). exists v, ((k', v') :: rest).
      split; [reflexivity|]. split; [right; exact Hi|]. intros e. specialize (Hs e). cbn in *. tauto.
  Qed.
  (** nothing is lost while there is room *)
  Lemma lru_room m compute k (c : list (K * V)) : (forall v, ~ In k (map fst c) -> compute tt = Ok v -> length c < m) ->
    match lru eqb m compute k c with
    | (Ok v, c') => In (k, v) c' /\ (In k (map fst c) -> In (k, v) c) /\ (~ In k (map fst c) -> compute tt = Ok v) /\
        (forall e, In e c' <-> In e c \/ (e = (k, v) /\ ~ In k (map fst c)) \/ (e = (k, v) /\ In e c)) /\ (NoDup (map fst c) -> NoDup (map fst c'))
    | (Err e, c') => c' = c /\ ~ In k (map fst c) /\ compute tt = Err e
    end.
  Proof.
    intros Hm. unfold lru. destruct (take_key eqb k c) as [[e rest]|] eqn:E.
    - assert (Hi : In k (map fst c)).
      { destruct (in_dec (key_dec eqb Heq) k (map fst c)) as [Hi|Hi]; [exact Hi|]. apply (take_none eqb Heq (fun _ => true)) in Hi. congruence. }
      destruct (take_found k c Hi) as (v & rest' & E' & Hv & Hs). rewrite E in E'. injection E' as -> ->. cbn [snd].
      split; [left; reflexivity|]. split; [auto|]. split; [contradiction|]. split.
      + intros e. rewrite (Hs e). split; [auto|]. intros [H|[[-> H]|[-> H]]]; [exact H|contradiction|exact H].
      + intros Hn. destruct (take_some eqb Heq k c (k, v) rest' Hn E) as [_ E2]. cbn [map fst]. rewrite E2. constructor; [|apply without_NoDup, Hn].
        intros X. apply (in_without eqb Heq) in X as [_ X]. apply X. reflexivity.
    - apply (take_none eqb Heq (fun _ => true)) in E. destruct (compute tt) as [v|e] eqn:Ec; [|auto].
      specialize (Hm v E eq_refl). rewrite firstn_all2 by (cbn; lia). split; [left; reflexivity|]. split; [intros X; contradiction|]. split; [auto|]. split.
      + intros e. cbn. split; [intros [<-|H]; auto|]. intros [H|[[-> H]|[-> H]]]; auto.
      + intros Hn. cbn. constructor; assumption.
  Qed.
End Take.

Section Warm.
  Context {A : Type} (lim : limits) (U : unicode) (HU : unicode_ok U).
  Implicit Types (h : list (event A)) (st : @caches Z).

  (** *** the state of recipes and plans *)
  Definition after_plan o (q : rkey * list Z * list (pystr * Z)) st : caches :=
    let '(k, shape, sizes) := q in
    match cached_prepare lim U o k st with
    | (Ok rec, st1) => snd (cached_reconstruct int_ops Z.eqb lim rec shape sizes st1)
    | (Err _, st1) => st1
    end.
  Definition same_plans st st' : Prop := c_recipes st = c_recipes st' /\ c_cooked st = c_cooked st' /\ c_made st = c_made st'.
  Lemma hashable_ints (shape : list Z) (sizes : list (pystr * Z)) : key_hashable (fun _ => true) shape sizes = true.
  Proof. unfold key_hashable. apply andb_true_iff. split; apply forallb_forall; reflexivity. Qed.
  Lemma shape_ints (r : runtime A) t : b_shape (rt_backend r) t = map Z.of_nat (shp t).
  Proof. unfold rt_backend. destruct (rt_framework r); reflexivity. Qed.
  Lemma serve_plan (r : runtime A) c st : rt_unicode r = U ->
    match plan_asked r c with
    | Some q => recipe_asked r c = Some (fst (fst q)) /\ same_plans (snd (serve lim r c st)) (after_plan (rt_orders r) q st)
    | None => recipe_asked r c = None /\ same_plans (snd (serve lim r c st)) st
    end.
  Proof.
    intros EU.
    assert (AN : forall p op, same_plans (snd (cached_analyze lim U p op st)) st).
    { intros p op. unfold cached_analyze. destruct (lru _ _ _ _ _). repeat split; reflexivity. }
    destruct c as [x p red id sizes|x p red id sizes|ts p|x ps p|ts p|x ps p|lib args]; unfold plan_asked; cbn [serve recipe_asked].
    - unfold cached_reduce, cached_api_reduce. destruct (check_kwargs reserved_kwargs sizes) as [u|]; cbn [bind]; [|repeat split; reflexivity].
      destruct (stack_input (rt_backend r) x) as [t|]; [|repeat split; reflexivity]. destruct (opkey_of red id) as [op|]; [|repeat split; reflexivity].
      split; [reflexivity|]. rewrite EU, shape_rank. unfold after_plan. destruct (cached_prepare lim U (rt_orders r) _ st) as [[rec|e] st1]; [|repeat split; reflexivity].
      unfold cooked_for. rewrite hashable_ints, shape_ints. destruct (cached_reconstruct int_ops Z.eqb lim rec (map Z.of_nat (shp t)) sizes st1) as [[k|[]] st2]; repeat split; reflexivity.
    - unfold cached_xp_reduce. destruct (check_kwargs reserved_kwargs sizes) as [u|]; cbn [bind]; [|repeat split; reflexivity].
      destruct (stack_input_array_api (rt_ns r) x) as [t|]; [|repeat split; reflexivity]. destruct (opkey_of red id) as [op|]; [|repeat split; reflexivity].
      split; [reflexivity|]. rewrite EU, xp_rank. unfold after_plan. destruct (cached_prepare lim U (rt_orders r) _ st) as [[rec|e] st1]; [|repeat split; reflexivity].
      change (xp_shape (rt_ns r) t) with (map Z.of_nat (shp t)). destruct (cached_reconstruct int_ops Z.eqb lim rec (map Z.of_nat (shp t)) sizes st1) as [k st2]; repeat split; reflexivity.
    - split; [reflexivity|]. unfold cached_pack. rewrite EU. pose proof (AN p (lit "pack")) as F. destruct (cached_analyze lim U p (lit "pack") st) as [a st1]. exact F.
    - split; [reflexivity|]. unfold cached_unpack. rewrite EU. pose proof (AN p (lit "unpack")) as F. destruct (cached_analyze lim U p (lit "unpack") st) as [a st1]. exact F.
    - split; [reflexivity|]. unfold cached_xp_pack. rewrite EU. pose proof (AN p (lit "pack")) as F. destruct (cached_analyze lim U p (lit "pack") st) as [a st1]. exact F.
    - split; [reflexivity|]. unfold cached_xp_unpack. rewrite EU. pose proof (AN p (lit "unpack")) as F. destruct (cached_analyze lim U p (lit "unpack") st) as [a st1]. exact F.
    - split; [reflexivity|]. unfold cached_einsum. rewrite EU. destruct (last args (inr [])) as [t|p]; [repeat split; reflexivity|].
      destruct (length args <=? 1); [repeat split; reflexivity|]. unfold cached_compactify. destruct (lru str_eqb _ _ _ _). repeat split; reflexivity.
  Qed.

  Record warm (plans : list (rkey * list Z * list (pystr * Z))) st : Prop := {
    w_keys : NoDup (map fst (c_recipes st));
    w_ids : forall k id rec k' rec', In (k, (id, rec)) (c_recipes st) -> In (k', (id, rec')) (c_recipes st) -> k = k';
    w_bound : forall k id rec, In (k, (id, rec)) (c_recipes st) -> id < length (c_made st);
    w_right : forall p op ns n id rec, In ((p, op, ns, n), (id, rec)) (c_recipes st) -> exists o, orders_ok o /\ prepare_recipe U o p (op_of_key op) ns n = Ok rec;
    w_plans : NoDup (map fst (c_cooked st));
    w_from : forall id sh sz, In (id, sh, sz) (map fst (c_cooked st)) -> exists k rec, In (k, (id, rec)) (c_recipes st) /\ In (k, sh, sz) plans;
    w_have : forall k sh sz id rec ck, In (k, sh, sz) plans -> In (k, (id, rec)) (c_recipes st) -> reconstruct int_ops rec sh sz = Ok ck -> In (id, sh, sz) (map fst (c_cooked st)) }.
  Lemma warm_same plans st st' : same_plans st st' -> warm plans st' -> warm plans st.
  Proof. intros (E1 & E2 & E3) [W1 W2 W3 W3' W4 W5 W6]. split; rewrite ?E1, ?E2, ?E3; assumption. Qed.

  (** a recipe is asked for *)
  Lemma warm_prepare plans o k st : orders_ok o -> warm plans st -> (forall rec, ~ In k (map fst (c_recipes st)) -> (let '(p, op, ns, n) := k in prepare_recipe U o p (op_of_key op) ns n = Ok rec) -> length (c_recipes st) < l_recipes lim /\ forall sh sz, ~ In (k, sh, sz) plans) ->
    warm plans (snd (cached_prepare lim U o k st)) /\
    match fst (cached_prepare lim U o k st) with Ok v => In (k, v) (c_recipes (snd (cached_prepare lim U o k st))) | Err _ => ~ In k (map fst (c_recipes (snd (cached_prepare lim U o k st)))) end /\
    (In k (map fst (c_recipes st)) -> exists v, fst (cached_prepare lim U o k st) = Ok v /\ In (k, v) (c_recipes st)).
  Proof.
    intros Ho [W1 W2 W3 W3' W4 W5 W6] Hroom. destruct k as [[[p op] ns] n]. unfold cached_prepare.
    set (k := (p, op, ns, n)) in *. set (compute := fun _ : unit => _).
    pose proof (lru_room rkey_eqb rkey_eqb_eq (l_recipes lim) compute k (c_recipes st)) as L.
    assert (L' : forall v, ~ In k (map fst (c_recipes st)) -> compute tt = Ok v -> length (c_recipes st) < l_recipes lim).
    { intros v Hn E. unfold compute in E. apply bind_Ok in E as [rec [E _]]. apply (Hroom rec Hn E). }
    specialize (L L'). destruct (lru rkey_eqb (l_recipes lim) compute k (c_recipes st)) as [[[id rec]|e] c]; cbn [fst snd].
    - destruct L as (L1 & L2 & L3 & L4 & L5). split; [|split; [exact L1|intros Hi; exists (id, rec); auto]].
      destruct (in_dec (key_dec rkey_eqb rkey_eqb_eq) k (map fst (c_recipes st))) as [Hi|Hi].
      + destruct (take_found rkey_eqb rkey_eqb_eq k (c_recipes st) Hi) as (v & rest & -> & _).
        assert (Hsame : forall e, In e c <-> In e (c_recipes st)) by (intros e; rewrite L4; split; [intros [H|[[_ H]|[_ H]]]; auto; contradiction|auto]).
        split; cbn [c_recipes c_cooked c_made]; auto.
        * intros ? ? ? ? ? H1 H2. apply Hsame in H1, H2. eauto.
        * intros ? ? ? H1. apply Hsame in H1. eauto.
        * intros ? ? ? ? ? ? H1. apply Hsame in H1. eauto.
        * intros i sh sz H. destruct (W5 i sh sz H) as (k1 & r1 & G1 & G2). exists k1, r1. split; [apply Hsame, G1|exact G2].
        * intros ? ? ? ? ? ? H1 H2. apply Hsame in H2. eauto.
      + rewrite (proj2 (take_none rkey_eqb rkey_eqb_eq (fun _ => true) k (c_recipes st)) Hi). specialize (L3 Hi). unfold compute in L3.
        apply bind_Ok in L3 as [rec' [E0 E]]. injection E as <- <-. destruct (Hroom _ Hi E0) as [_ Hnp].
        assert (Hsame : forall e, In e c <-> In e (c_recipes st) \/ e = (k, (length (c_made st), rec'))).
        { intros e. rewrite L4. split; [intros [H|[[H _]|[_ H]]]; auto|]. intros [H|H]; auto. }
        split; cbn [c_recipes c_cooked c_made]; auto.
        * intros k1 i1 r1 k2 r2 H1 H2. apply Hsame in H1, H2. destruct H1 as [H1|H1], H2 as [H2|H2].
          -- eauto.
          -- injection H2 as -> -> ->. apply W3 in H1. lia.
          -- injection H1 as -> -> ->. apply W3 in H2. lia.
          -- congruence.
        * intros k1 i1 r1 H1. rewrite app_length. cbn [length]. apply Hsame in H1 as [H1|H1]; [apply W3 in H1; lia|]. injection H1 as -> -> ->. lia.
        * intros p1 op1 ns1 n1 i1 r1 H1. apply Hsame in H1 as [H1|H1]; [eauto|]. injection H1 as -> -> -> -> -> ->. eauto.
        * intros i sh sz H. destruct (W5 i sh sz H) as (k1 & r1 & G1 & G2). exists k1, r1. split; [apply Hsame; left; exact G1|exact G2].
        * intros k1 sh sz i1 r1 ck H1 H2. apply Hsame in H2 as [H2|H2]; [eauto|]. injection H2 as -> -> ->. exfalso. exact (Hnp sh sz H1).
    - destruct L as (-> & Hi & _). split; [|split; [exact Hi|intros X; contradiction]].
      destruct (take_key rkey_eqb k (c_recipes st)); split; cbn [c_recipes c_cooked c_made]; auto.
  Qed.

  (** a plan is asked for *)
  Lemma warm_reconstruct plans k id rec sh sz st : warm plans st -> In (k, (id, rec)) (c_recipes st) -> fewer_than (fun _ => True) (S (l_cooked lim)) ((k, sh, sz) :: plans) ->
    warm ((k, sh, sz) :: plans) (snd (cached_reconstruct int_ops Z.eqb lim (id, rec) sh sz st)).
  Proof.
    intros [W1 W2 W3 W3' W4 W5 W6] Hk Hf. unfold cached_reconstruct. cbn [fst snd].
    assert (Hroom : forall v, ~ In (id, sh, sz) (map fst (c_cooked st)) -> reconstruct int_ops rec sh sz = Ok v -> length (c_cooked st) < l_cooked lim).
    { intros v Hn _.
      (* every stored plan comes from a different request *)
      assert (G : forall l : list (nat * list Z * list (pystr * Z)), NoDup l -> (forall q, In q l -> In q (map fst (c_cooked st))) ->
        exists l', NoDup l' /\ length l' = length l /\ forall q, In q l' -> In q plans /\ exists i r0, In (fst (fst q), (i, r0)) (c_recipes st) /\ In (i, snd (fst q), snd q) l).
      { induction l as [|[[i s] z] l IH]; intros Hd Hl; [exists []; split; [constructor|]; split; [reflexivity|intros ? []]|].
        inversion_clear Hd as [|? ? Hd1 Hd2]. destruct (IH Hd2 (fun q Hq => Hl q (or_intror Hq))) as (l' & D & E & F).
        destruct (W5 i s z (Hl _ (or_introl eq_refl))) as (k1 & r1 & G1 & G2). exists ((k1, s, z) :: l'). split; [|split; [cbn; lia|]].
        - constructor; [|exact D]. intros X. destruct (F _ X) as (_ & i' & r' & X1 & X2). cbn [fst snd] in X1, X2.
          assert (Ei : (i', r') = (i, r1)) by (eapply key_fun; eauto).
          injection Ei as -> ->. exact (Hd1 X2).
        - intros q [<-|Hq]; cbn [fst snd]; [split; [exact G2|]; exists i, r1; split; [exact G1|left; reflexivity]|].
          destruct (F q Hq) as (F1 & i' & r' & F2 & F3). split; [exact F1|]. exists i', r'. split; [exact F2|right; exact F3]. }
      destruct (G (map fst (c_cooked st)) W4 (fun q Hq => Hq)) as (l' & D & E & F). rewrite map_length in E.
      enough (length ((k, sh, sz) :: l') < S (l_cooked lim)) by (cbn in *; lia). apply Hf.
      - constructor; [|exact D]. intros X. destruct (F _ X) as (_ & i' & r' & X1 & X2). cbn [fst snd] in X1, X2.
        assert (Ei : (i', r') = (id, rec)) by (eapply key_fun; eauto). injection Ei as -> ->. exact (Hn X2).
      - intros q [<-|Hq]; [split; [left; reflexivity|exact I]|]. split; [right; apply (F q Hq)|exact I]. }
    pose proof (lru_room (ckey_eqb Z.eqb) ckey_eqb_iff (l_cooked lim) (fun _ => reconstruct int_ops rec sh sz) (id, sh, sz) (c_cooked st) Hroom) as L.
    destruct (lru (ckey_eqb Z.eqb) (l_cooked lim) (fun _ => reconstruct int_ops rec sh sz) (id, sh, sz) (c_cooked st)) as [[ck|e] c]; cbn [snd].
    - destruct L as (L1 & L2 & L3 & L4 & L5).
      assert (Hkeys : forall q, In q (map fst c) <-> In q (map fst (c_cooked st)) \/ q = (id, sh, sz)).
      { intros q. split.
        - intros H. apply in_map_iff in H as (e & <- & H). apply L4 in H as [H|[[-> _]|[-> _]]]; [left; apply in_map, H|right; reflexivity|right; reflexivity].
        - intros [H| ->]; [|apply in_map_iff; exists ((id, sh, sz), ck); auto]. apply in_map_iff in H as (e & <- & H). apply in_map. apply L4. left. exact H. }
      split; cbn [c_recipes c_cooked c_made]; auto.
      + intros i s z H. apply Hkeys in H as [H|H].
        * destruct (W5 i s z H) as (k1 & r1 & G1 & G2). exists k1, r1. split; [exact G1|right; exact G2].
        * injection H as -> -> ->. exists k, rec. split; [exact Hk|left; reflexivity].
      + intros k1 s z i r1 ck1 [H1|H1] H2 H3; apply Hkeys.
        * injection H1 as <- <- <-. right. assert (X : (i, r1) = (id, rec)) by (eapply key_fun; eauto). congruence.
        * left. eauto.
    - destruct L as (-> & Hn & Er). split; cbn [c_recipes c_cooked c_made]; auto.
      + intros i s z H. destruct (W5 i s z H) as (k1 & r1 & G1 & G2). exists k1, r1. split; [exact G1|right; exact G2].
      + intros k1 s z i r1 ck1 [H1|H1] H2 H3; [|eauto]. injection H1 as <- <- <-. exfalso.
        assert (X : (i, r1) = (id, rec)) by (eapply key_fun; eauto). injection X as -> ->. congruence.
  Qed.

  Lemma plans_recipes h k sh sz : Forall (event_ok U) h -> calls_only h -> In (k, sh, sz) (plan_requests h) -> In k (recipe_requests h).
  Proof.
    induction h as [|e h IH]; intros F Hc; [intros []|]. inversion_clear F as [|? ? He Fh]. assert (Hc' : calls_only h) by (intros x Hx; apply Hc; right; exact Hx).
    unfold plan_requests, recipe_requests in *. cbn [requests]. specialize (Hc e (or_introl eq_refl)). destruct e as [r c|o q|rec shape sizes|b1 b2 b3 b4]; try contradiction.
    - destruct He as [Hr EU]. pose proof (serve_plan r c no_caches EU) as P. destruct (plan_asked r c) as [q|].
      + destruct P as [-> _]. intros [-> |H]; [left; reflexivity|right; auto].
      + destruct P as [-> _]. auto.
    - intros H. right. auto.
  Qed.
  Lemma kept h k : Forall (event_ok U) h -> fewer_than (recipe_accepted U) (S (l_recipes lim)) (recipe_requests h) -> recipe_accepted U k ->
    In k (recipe_requests h) -> In k (map fst (c_recipes (caches_after lim U h))).
  Proof.
    intros F Hf Hk Hi. destruct (keys_after lim U HU h F) as (-> & _ & _). rewrite firstn_all2.
    - apply (in_recent rkey_eqb rkey_eqb_eq). split; [exact Hi|]. apply (recipe_ok_iff U HU), Hk.
    - apply (fewer_recent rkey_eqb rkey_eqb_eq _ (recipe_ok U) (recipe_accepted U)) in Hf; [lia|]. intros q. apply (recipe_ok_iff U HU).
  Qed.
  Lemma room h o k : Forall (event_ok U) h -> calls_only h -> orders_ok o -> fewer_than (recipe_accepted U) (S (l_recipes lim)) (k :: recipe_requests h) ->
    forall rec, ~ In k (map fst (c_recipes (caches_after lim U h))) -> (let '(p, op, ns, n) := k in prepare_recipe U o p (op_of_key op) ns n = Ok rec) ->
    length (c_recipes (caches_after lim U h)) < l_recipes lim /\ forall sh sz, ~ In (k, sh, sz) (plan_requests h).
  Proof.
    intros F Hc Ho Hf rec Hn E. assert (Hk : recipe_accepted U k) by (destruct k as [[[p op] ns] n]; exists o, rec; auto).
    assert (Hf' : fewer_than (recipe_accepted U) (S (l_recipes lim)) (recipe_requests h)).
    { intros l Hd Hl. apply Hf; [exact Hd|]. intros x Hx. destruct (Hl x Hx). split; [right|]; assumption. }
    split.
    - enough (length (k :: map fst (c_recipes (caches_after lim U h))) < S (l_recipes lim)) by (cbn in *; rewrite map_length in *; lia).
      destruct (keys_after lim U HU h F) as (EK & _ & _). apply Hf.
      + constructor; [exact Hn|]. rewrite EK. pose proof (recent_NoDup rkey_eqb rkey_eqb_eq (recipe_ok U) (recipe_requests h)) as D.
        rewrite <- (firstn_skipn (l_recipes lim)) in D. apply NoDup_app_iff in D. tauto.
      + intros x [<-|Hx]; [split; [left; reflexivity|exact Hk]|]. rewrite EK in Hx. apply In_firstn' in Hx. apply (in_recent rkey_eqb rkey_eqb_eq) in Hx as [X1 X2].
        split; [right; exact X1|]. apply (recipe_ok_iff U HU), X2.
    - intros sh sz Hi. apply Hn. apply kept; auto. eapply plans_recipes; eauto.
  Qed.

  Lemma warm_after h : Forall (event_ok U) h -> calls_only h -> fewer_than (recipe_accepted U) (S (l_recipes lim)) (recipe_requests h) ->
    fewer_than (fun _ => True) (S (l_cooked lim)) (plan_requests h) -> warm (plan_requests h) (caches_after lim U h).
  Proof.
    induction h as [|e h IH]; intros F Hc Hf Hp; [split; cbn; try constructor; intros; contradiction|].
    inversion_clear F as [|? ? He Fh]. assert (Hc' : calls_only h) by (intros x Hx; apply Hc; right; exact Hx). specialize (Hc e (or_introl eq_refl)).
    destruct e as [r c|o k|rec shape sizes|b1 b2 b3 b4]; try contradiction.
    - destruct He as [Hr EU]. cbn [caches_after event_step]. pose proof (serve_plan r c (caches_after lim U h) EU) as P.
      unfold plan_requests, recipe_requests in Hf, Hp |- *. cbn [requests] in *. destruct (plan_asked r c) as [[[k sh] sz]|].
      + destruct P as [ER P]. cbn [fst] in ER. rewrite ER in Hf. fold (recipe_requests h) in Hf. fold (plan_requests h) in Hp |- *. apply (warm_same _ _ _ P). unfold after_plan.
        assert (W : warm (plan_requests h) (caches_after lim U h)).
        { apply IH; auto; intros l Hd Hl; [apply Hf|apply Hp]; auto; intros x Hx; destruct (Hl x Hx); split; [right| |right|]; assumption. }
        destruct (warm_prepare _ (rt_orders r) k _ (ro_orders _ Hr) W (room h (rt_orders r) k Fh Hc' (ro_orders _ Hr) Hf)) as (W' & G & _).
        destruct (cached_prepare lim U (rt_orders r) k (caches_after lim U h)) as [[[id rec]|ex] st1]; cbn [fst snd] in *.
        * apply warm_reconstruct; assumption.
        * destruct W' as [W1 W2 W3 W3' W4 W5 W6]. split; auto.
          -- intros i s z H. destruct (W5 i s z H) as (k1 & r1 & G1 & G2). exists k1, r1. split; [exact G1|right; exact G2].
          -- intros k1 s z i r1 ck [H1|H1] H2 H3; [|eauto]. injection H1 as <- <- <-. exfalso. apply G. apply in_map_iff. exists (k, (i, r1)). auto.
      + destruct P as [ER P]. rewrite ER in Hf. apply (warm_same _ _ _ P). apply IH; auto.
    - cbn [caches_after event_step event_ok] in *. unfold plan_requests, recipe_requests in Hf, Hp |- *. cbn [requests] in *. fold (recipe_requests h) in Hf. fold (plan_requests h) in Hp |- *.
      apply warm_prepare.
      + exact He.
      + apply IH; auto. intros l Hd Hl. apply Hf; auto. intros x Hx. destruct (Hl x Hx). split; [right|]; assumption.
      + apply room; assumption.
  Qed.

  (** a call that returned: its plan can be made from any recipe for its key *)
  Lemma plan_works (r : runtime A) c v k sh sz : runtime_ok r -> rt_unicode r = U -> call_ok c -> compute r c = OutTensor (Ok v) -> plan_asked r c = Some (k, sh, sz) ->
    recipe_accepted U k /\ forall o rec, orders_ok o -> (let '(p, op, ns, n) := k in prepare_recipe U o p (op_of_key op) ns n = Ok rec) -> exists ck, reconstruct int_ops rec sh sz = Ok ck.
  Proof.
    intros Hr EU Hc E Hp.
    destruct c as [x p red id sizes|x p red id sizes|ts p|x ps p|ts p|x ps p|lib args]; unfold plan_asked in Hp; cbn [recipe_asked] in Hp; try discriminate; cbn [compute call_ok] in *; destruct Hc as [Hn _].
    - injection E as E. destruct (check_kwargs reserved_kwargs sizes) as [u|] eqn:Ek; [|discriminate]. destruct (stack_input (rt_backend r) x) as [t|] eqn:Et; [|discriminate].
      destruct (opkey_of red id) as [op|] eqn:Eo; [|discriminate]. injection Hp as <- <- <-. apply opkey_of_op in Eo.
      assert (G : forall o, orders_ok o -> exists rec, prepare_recipe U o p (op_of red) (map fst sizes) (length (shp t)) = Ok rec /\ exists ck, reconstruct int_ops rec (map Z.of_nat (shp t)) sizes = Ok ck).
      { intros o Ho. destruct (orders_irrelevant r Hr o sizes Ho Hn x p) as (_ & _ & H & _). rewrite H in E. unfold reduce, api_reduce in E. cbn [with_orders rt_unicode rt_orders] in E.
        change (rt_backend (with_orders r o)) with (rt_backend r) in E. rewrite Ek, Et, EU in E. cbn [bind] in E. rewrite shape_rank in E.
        apply bind_Ok in E as [rec [E1 E]]. exists rec. split; [exact E1|]. unfold apply_recipe in E. rewrite shape_ints in E. apply bind_Ok in E as [ck [E2 _]]. eauto. }
      split.
      + destruct (G (rt_orders r) (ro_orders _ Hr)) as (rec & G1 & _). exists (rt_orders r), rec. rewrite Eo. split; [apply Hr|exact G1].
      + intros o rec Ho H. rewrite Eo in H. destruct (G o Ho) as (rec' & G1 & G2). rewrite H in G1. injection G1 as ->. exact G2.
    - injection E as E. destruct (check_kwargs reserved_kwargs sizes) as [u|] eqn:Ek; [|discriminate]. destruct (stack_input_array_api (rt_ns r) x) as [t|] eqn:Et; [|discriminate].
      destruct (opkey_of red id) as [op|] eqn:Eo; [|discriminate]. injection Hp as <- <- <-. apply opkey_of_op in Eo.
      assert (G : forall o, orders_ok o -> exists rec, prepare_recipe U o p (op_of red) (map fst sizes) (length (shp t)) = Ok rec /\ exists ck, reconstruct int_ops rec (map Z.of_nat (shp t)) sizes = Ok ck).
      { intros o Ho. destruct (orders_irrelevant r Hr o sizes Ho Hn x p) as (_ & _ & _ & _ & _ & H). rewrite H in E. unfold xp_reduce_, aa_reduce in E. cbn [with_orders rt_unicode rt_orders] in E.
        change (rt_ns (with_orders r o)) with (rt_ns r) in E. rewrite Ek, Et, EU in E. cbn [bind] in E. rewrite xp_rank in E.
        apply bind_Ok in E as [rec [E1 E]]. exists rec. split; [exact E1|]. unfold apply_recipe_array_api in E. apply bind_Ok in E as [ck [E2 _]]. exists ck. exact E2. }
      split.
      + destruct (G (rt_orders r) (ro_orders _ Hr)) as (rec & G1 & _). exists (rt_orders r), rec. rewrite Eo. split; [apply Hr|exact G1].
      + intros o rec Ho H. rewrite Eo in H. destruct (G o Ho) as (rec' & G1 & G2). rewrite H in G1. injection G1 as ->. exact G2.
  Qed.

  (** what is run when everything is found *)
  Lemma runs_found (r : runtime A) c st k id rec sh sz : rt_unicode r = U -> plan_asked r c = Some (k, sh, sz) -> NoDup (map fst (c_recipes st)) ->
    In (k, (id, rec)) (c_recipes st) -> In (id, sh, sz) (map fst (c_cooked st)) -> runs lim r c st = [].
  Proof.
    intros EU Hp Hn Hk Hi.
    assert (P1 : prepare_runs k st = []).
    { unfold prepare_runs, lru_runs. destruct (take_found rkey_eqb rkey_eqb_eq k (c_recipes st)) as (v & rest & -> & _); [apply in_map_iff; exists (k, (id, rec)); auto|reflexivity]. }
    assert (P2 : forall o, exists st1, cached_prepare lim U o k st = (Ok (id, rec), st1) /\ c_cooked st1 = c_cooked st).
    { intros o. destruct (take_found rkey_eqb rkey_eqb_eq k (c_recipes st)) as (v & rest & E & Hv & _); [apply in_map_iff; exists (k, (id, rec)); auto|].
      pose proof (key_fun k (c_recipes st) v (id, rec) Hn Hv Hk) as ->. unfold cached_prepare, lru. rewrite E. destruct k as [[[p op] ns] n]. eexists. split; reflexivity. }
    assert (P3 : forall st1, c_cooked st1 = c_cooked st -> cook_runs (id, rec) sh sz st1 = [] /\ exists ck st2, cached_reconstruct int_ops Z.eqb lim (id, rec) sh sz st1 = (Ok ck, st2)).
    { intros st1 E1. unfold cook_runs, lru_runs, cached_reconstruct, lru. cbn [fst snd]. rewrite E1.
      destruct (take_found (ckey_eqb Z.eqb) ckey_eqb_iff (id, sh, sz) (c_cooked st) Hi) as (v & rest & -> & _). split; [reflexivity|]. eauto. }
    destruct c as [x p red i sizes|x p red i sizes|ts p|x ps p|ts p|x ps p|lib args]; unfold plan_asked in Hp; cbn [recipe_asked] in Hp; try discriminate; cbn [runs].
    - unfold reduce_runs. destruct (check_kwargs reserved_kwargs sizes) as [u|]; [|discriminate]. cbn [bind]. destruct (stack_input (rt_backend r) x) as [t|]; [|discriminate].
      destruct (opkey_of red i) as [op|]; [|discriminate]. injection Hp as <- <- <-. rewrite EU, shape_rank, P1. cbn [app]. destruct (P2 (rt_orders r)) as (st1 & -> & E1).
      unfold cooked_runs. rewrite shape_ints. destruct (P3 st1 E1) as (-> & ck & st2 & ->). reflexivity.
    - unfold xp_reduce_runs. destruct (check_kwargs reserved_kwargs sizes) as [u|]; [|discriminate]. cbn [bind]. destruct (stack_input_array_api (rt_ns r) x) as [t|]; [|discriminate].
      destruct (opkey_of red i) as [op|]; [|discriminate]. injection Hp as <- <- <-. rewrite EU, xp_rank, P1. cbn [app]. destruct (P2 (rt_orders r)) as (st1 & -> & E1).
      apply (P3 st1 E1).
  Qed.

  Lemma warm_runs h (r r' : runtime A) c c' v : Forall (event_ok U) h -> calls_only h ->
    fewer_than (recipe_accepted U) (S (l_recipes lim)) (recipe_requests h) -> fewer_than (fun _ => True) (S (l_cooked lim)) (plan_requests h) ->
    In (Called r' c') h -> call_ok c' -> compute r' c' = OutTensor (Ok v) -> plan_asked r' c' <> None ->
    rt_unicode r = U -> plan_asked r c = plan_asked r' c' -> runs lim r c (caches_after lim U h) = [].
  Proof.
    intros F Hc Hf Hp Hin Hok E Hq EU Eq. pose proof (warm_after h F Hc Hf Hp) as W. destruct (plan_asked r' c') as [[[k sh] sz]|] eqn:Ep; [|contradiction].
    assert (Hev : event_ok U (Called r' c')) by (rewrite Forall_forall in F; apply F, Hin). destruct Hev as [Hr' EU'].
    destruct (plan_works r' c' v k sh sz Hr' EU' Hok E Ep) as [Hacc Hplan].
    assert (Hi : In (k, sh, sz) (plan_requests h)).
    { clear - Hin Ep. unfold plan_requests. induction h as [|e h IH]; [destruct Hin|]. cbn [requests]. destruct Hin as [->|Hin]; [rewrite Ep; left; reflexivity|].
      destruct e as [r c|o q|rec shape sizes|b1 b2 b3 b4]; try (apply IH, Hin). destruct (plan_asked r c); [right|]; apply IH, Hin. }
    assert (Hk : In k (map fst (c_recipes (caches_after lim U h)))) by (apply kept; auto; eapply plans_recipes; eauto).
    apply in_map_iff in Hk as ([k0 [id rec]] & Ek & Hk). cbn in Ek. subst k0.
    destruct k as [[[p op] ns] n]. destruct (w_right _ _ W _ _ _ _ _ _ Hk) as (o & Ho & Er). destruct (Hplan o rec Ho Er) as [ck Hck].
    eapply runs_found; [exact EU|exact Eq|apply W|exact Hk|]. eapply w_have; eauto.
  Qed.
End Warm.

(** *** in the words of the theorems *)
Section Words.
  Context {A : Type} (lim : limits) (U : unicode) (HU : unicode_ok U).
  Implicit Types (h : list (event A)).
  Lemma recipes_when h (r : runtime A) c : Forall (event_ok U) h -> rt_unicode r = U ->
    match recipe_asked r c with
    | Some k => once_unless (remembered (recipe_accepted U) (l_recipes lim) (recipe_requests h) k) (recipes_in (runs lim r c (caches_after lim U h))) k
    | None => recipes_in (runs lim r c (caches_after lim U h)) = []
    end.
  Proof. intros F EU. destruct (runs_kinds lim U r c (caches_after lim U h) EU) as (E & _ & _). rewrite E. destruct (recipe_asked r c); [apply prepare_when; assumption|reflexivity]. Qed.
  Lemma patterns_when h (r : runtime A) c : Forall (event_ok U) h -> rt_unicode r = U ->
    match pattern_asked c with
    | Some k => once_unless (remembered (pattern_accepted U) (l_analyzed lim) (pattern_requests h) k) (patterns_in (runs lim r c (caches_after lim U h))) k
    | None => patterns_in (runs lim r c (caches_after lim U h)) = []
    end.
  Proof. intros F EU. destruct (runs_kinds lim U r c (caches_after lim U h) EU) as (_ & E & _). rewrite E. destruct (pattern_asked c); [apply analyze_when; assumption|reflexivity]. Qed.
  Lemma einsums_when h (r : runtime A) c : Forall (event_ok U) h -> rt_unicode r = U ->
    match einsum_asked c with
    | Some p => once_unless (remembered (einsum_accepted U) (l_compact lim) (einsum_requests h) p) (einsums_in (runs lim r c (caches_after lim U h))) p
    | None => einsums_in (runs lim r c (caches_after lim U h)) = []
    end.
  Proof. intros F EU. destruct (runs_kinds lim U r c (caches_after lim U h) EU) as (_ & _ & E). rewrite E. destruct (einsum_asked c); [apply compact_when; assumption|reflexivity]. Qed.
  Notation akey := (fun a b : pystr * pystr => str_eqb (fst a) (fst b) && str_eqb (snd a) (snd b)).
  Lemma all_once h : Forall (event_ok U) h ->
    ((forall a b c, ~ In (Cleared true a b c) h) -> fewer_than (recipe_accepted U) (S (l_recipes lim)) (recipe_requests h) ->
       forall k, (recipe_accepted U k -> In k (recipe_requests h) -> exactly_once k (recipes_in (work lim U h))) /\
                 (~ In k (recipe_requests h) -> ~ In k (recipes_in (work lim U h)))) /\
    ((forall a b c, ~ In (Cleared a b true c) h) -> fewer_than (pattern_accepted U) (S (l_analyzed lim)) (pattern_requests h) ->
       forall k, (pattern_accepted U k -> In k (pattern_requests h) -> exactly_once k (patterns_in (work lim U h))) /\
                 (~ In k (pattern_requests h) -> ~ In k (patterns_in (work lim U h)))) /\
    ((forall a b c, ~ In (Cleared a b c true) h) -> fewer_than (einsum_accepted U) (S (l_compact lim)) (einsum_requests h) ->
       forall p, (einsum_accepted U p -> In p (einsum_requests h) -> exactly_once p (einsums_in (work lim U h))) /\
                 (~ In p (einsum_requests h) -> ~ In p (einsums_in (work lim U h)))).
  Proof.
    intros F. split; [|split]; intros Hc Hf.
    - apply (kind_once lim U (key_dec rkey_eqb rkey_eqb_eq) (recipe_accepted U) (l_recipes lim) _ _ recipes_in eq_refl recipes_app (recipes_step lim U HU)); auto.
      intros e He. destruct e as [r c|o k|rec shape sizes|[] b2 b3 b4]; try reflexivity. exfalso. exact (Hc _ _ _ He).
    - apply (kind_once lim U (key_dec akey akey_eqb_eq) (pattern_accepted U) (l_analyzed lim) _ _ patterns_in eq_refl patterns_app (patterns_step lim U HU)); auto.
      intros e He. destruct e as [r c|o k|rec shape sizes|b1 b2 [] b4]; try reflexivity. exfalso. exact (Hc _ _ _ He).
    - apply (kind_once lim U (key_dec str_eqb str_eqb_eq) (einsum_accepted U) (l_compact lim) _ _ einsums_in eq_refl einsums_app (einsums_step lim U HU)); auto.
      intros e He. destruct e as [r c|o k|rec shape sizes|b1 b2 b3 []]; try reflexivity. exfalso. exact (Hc _ _ _ He).
  Qed.
  Lemma refused_each_time h (dec : forall a b : rkey, {a = b} + {a <> b}) k : Forall (event_ok U) h ->
    (forall a b c, ~ In (Cleared true a b c) h) -> ~ recipe_accepted U k ->
    count_occ dec (recipes_in (work lim U h)) k = count_occ dec (recipe_requests h) k.
  Proof.
    intros F Hc Hk. apply (kind_refused lim U dec (recipe_accepted U) (l_recipes lim) _ _ recipes_in eq_refl recipes_app (recipes_step lim U HU)); auto.
    intros e He. destruct e as [r c|o q|rec shape sizes|[] b2 b3 b4]; try reflexivity. exfalso. exact (Hc _ _ _ He).
  Qed.
End Words.
