(** * Caches used by several threads: facts *)
From Verif Require Import Py Tensor Parsing Recipe Ops Backends Api Packing Einsum ListFacts ParseFacts ApiFacts6 Cache CacheFacts CacheThreads Threads ThreadFacts.

Lemma look_spec {K V} (eqb : K -> K -> bool) k (c : list (K * V)) v c' : look eqb k c = (v, c') ->
  incl c' c /\ (v = None \/ exists k' w, In (k', w) c /\ eqb k k' = true /\ v = Some w).
Proof.
  unfold look. destruct (take_key eqb k c) as [[[k' w] others]|] eqn:E; intros H; injection H as <- <-.
  - apply take_key_spec in E as (H1 & H2 & H3). split; [|right; eauto]. intros a [<-|Ha]; [exact H1|apply H3, Ha].
  - split; [apply incl_refl|auto].
Qed.
Lemma put_spec {K V} (eqb : K -> K -> bool) n k v (c : list (K * V)) e : In e (put eqb n k v c) -> In e c \/ e = (k, v).
Proof. unfold put. destruct (take_key eqb k c); [auto|]. intros H. apply In_firstn' in H as [<-|H]; auto. Qed.

Section Facts.
  Context (lim : limits) {A : Type} (U : unicode).
  Notation sound := (CacheFacts.sound int_ops U).
  Notation proceed := (@proceed lim A).
  Notation occur := (@occur lim A).
  Notation occurred := (@occurred lim A).
  Implicit Types (made : list recipe) (p : rest A).

  Definition extends made made' : Prop := forall id rec, nth_error made id = Some rec -> nth_error made' id = Some rec.
  Lemma extends_refl made : extends made made. Proof. intros id rec H. exact H. Qed.
  Lemma extends_trans m1 m2 m3 : extends m1 m2 -> extends m2 m3 -> extends m1 m3. Proof. intros H1 H2 id rec H. apply H2, H1, H. Qed.
  Lemma extends_app made l : extends made (made ++ l).
  Proof. intros id rec H. rewrite nth_error_app1; [exact H|]. apply nth_error_Some. congruence. Qed.

  Definition recipe_for (k : rkey) (rec : recipe) : Prop :=
    let '(q, op, ns, n) := k in exists o, orders_ok o /\ prepare_recipe U o q (op_of_key op) ns n = Ok rec.
  (** what is left of a call ends in [v], whatever it finds in the caches *)
  Fixpoint good (v : outcome A) made p : Prop :=
    match p with
    | Return w => w = v
    | FindRecipe k go => forall made' found, extends made made' ->
        match found with None => True | Some (id, rec) => nth_error made' id = Some rec /\ recipe_for k rec end -> good v made' (go found)
    | StoreRecipe k rec go => recipe_for k rec /\ forall made' id, extends made made' -> nth_error made' id = Some rec -> good v made' (go id)
    | FindCooked (id, shape, sizes) go => forall made' found, extends made made' ->
        match found with None => True | Some k => exists rec, nth_error made' id = Some rec /\ reconstruct int_ops rec shape sizes = Ok k end -> good v made' (go found)
    | StoreCooked (id, shape, sizes) k go =>
        (exists rec, nth_error made id = Some rec /\ reconstruct int_ops rec shape sizes = Ok k) /\ forall made', extends made made' -> good v made' go
    | FindAnalyzed k go => forall made' found, extends made made' ->
        match found with None => True | Some w => analyze_pattern U (fst k) = Ok w end -> good v made' (go found)
    | StoreAnalyzed k w go => analyze_pattern U (fst k) = Ok w /\ forall made', extends made made' -> good v made' go
    | FindCompact k go => forall made' found, extends made made' ->
        match found with None => True | Some w => compactify U k = Ok w end -> good v made' (go found)
    | StoreCompact k w go => compactify U k = Ok w /\ forall made', extends made made' -> good v made' go
    end.
  Lemma good_extends v p : forall made made', extends made made' -> good v made p -> good v made' p.
  Proof.
    destruct p as [w|k go|k rec go|[[id sh] sz] go|[[id sh] sz] k go|k go|k w go|k go|k w go]; cbn; intros made made' H G; auto.
    all: try (intros m f E; apply G; eapply extends_trans; eauto).
    - destruct G as [G1 G2]. split; [auto|]. intros m i E. apply G2. eapply extends_trans; eauto.
    - destruct G as [(rec & G0 & G1) G2]. split; [exists rec; split; auto|]. intros m E. apply G2. eapply extends_trans; eauto.
    - destruct G as [G1 G2]. split; [auto|]. intros m E. apply G2. eapply extends_trans; eauto.
    - destruct G as [G1 G2]. split; [auto|]. intros m E. apply G2. eapply extends_trans; eauto.
  Qed.

  Lemma recipe_for_eqb k k' rec : rkey_eqb k k' = true -> recipe_for k' rec -> recipe_for k rec.
  Proof.
    destruct k as [[[q op] ns] n], k' as [[[q' op'] ns'] n']. intros E. apply rkey_eqb_op in E as (-> & E & -> & ->). cbn. rewrite E. auto.
  Qed.

  Lemma proceed_good v p st : sound st -> good v (c_made st) p ->
    sound (snd (proceed p st)) /\ extends (c_made st) (c_made (snd (proceed p st))) /\ good v (c_made (snd (proceed p st))) (fst (proceed p st)).
  Proof.
    intros [S1 S2 S3 S4] G. destruct p as [w|k go|k rec go|[[id sh] sz] go|[[id sh] sz] k go|k go|k w go|k go|k w go]; cbn [CacheThreads.proceed].
    - split; [split; assumption|]. split; [apply extends_refl|exact G].
    - destruct (look rkey_eqb k (c_recipes st)) as [found c] eqn:E. apply look_spec in E as [Hi Hf]. cbn [fst snd]. split; [|split].
      + split; cbn; auto.
      + apply extends_refl.
      + cbn in G |- *. apply G; [apply extends_refl|]. destruct Hf as [->|(k' & [id rec] & I & Q & ->)]; [auto|].
        destruct k' as [[[q op] ns] n]. destruct (S1 _ _ _ _ _ _ I) as [H1 H2]. split; [exact H1|]. eapply recipe_for_eqb; [exact Q|exact H2].
    - cbn [fst snd]. cbn in G. destruct G as [G1 G2]. pose proof (extends_app (c_made st) [rec]) as X.
      assert (N : nth_error (c_made st ++ [rec]) (length (c_made st)) = Some rec) by (rewrite nth_error_app2, Nat.sub_diag by lia; reflexivity).
      split; [|split].
      + split; cbn; auto.
        * intros q op ns n i rc I. apply put_spec in I as [I|I].
          -- destruct (S1 _ _ _ _ _ _ I) as [H1 H2]. split; [apply X, H1|exact H2].
          -- injection I as <- -> ->. split; [exact N|exact G1].
        * intros i s z kk I. destruct (S2 _ _ _ _ I) as (rc & H1 & H2). exists rc. split; [apply X, H1|exact H2].
      + exact X.
      + cbn. apply G2; [exact X|exact N].
    - destruct (look (ckey_eqb Z.eqb) (id, sh, sz) (c_cooked st)) as [found c] eqn:E. apply look_spec in E as [Hi Hf]. cbn [fst snd]. split; [|split].
      + split; cbn; auto.
      + apply extends_refl.
      + cbn in G |- *. apply G; [apply extends_refl|]. destruct Hf as [->|([[i' sh'] sz'] & k & I & Q & ->)]; [auto|].
        apply (ckey_eqb_eq Z.eqb zeq) in Q as (-> & -> & ->). apply S2, I.
    - cbn [fst snd]. cbn in G. destruct G as [G1 G2]. split; [|split].
      + split; cbn; auto. intros i s z kk I. apply put_spec in I as [I|I]; [apply S2, I|]. injection I as <- <- <- <-. exact G1.
      + apply extends_refl.
      + apply G2, extends_refl.
    - destruct (look akey_eqb k (c_analyzed st)) as [found c] eqn:E. apply look_spec in E as [Hi Hf]. cbn [fst snd]. split; [|split].
      + split; cbn; auto. intros q op w I. apply (S3 _ op), Hi, I.
      + apply extends_refl.
      + cbn in G |- *. apply G; [apply extends_refl|]. destruct Hf as [->|([q op] & w & I & Q & ->)]; [auto|].
        unfold akey_eqb in Q. apply andb_true_iff in Q as [Q _]. apply str_eqb_eq in Q. rewrite Q. eapply S3, I.
    - cbn [fst snd]. cbn in G. destruct G as [G1 G2]. split; [|split].
      + split; cbn; auto. intros q op x I. apply put_spec in I as [I|I]; [eapply S3, I|]. injection I as <- <-. exact G1.
      + apply extends_refl.
      + apply G2, extends_refl.
    - destruct (look str_eqb k (c_compact st)) as [found c] eqn:E. apply look_spec in E as [Hi Hf]. cbn [fst snd]. split; [|split].
      + split; cbn; auto.
      + apply extends_refl.
      + cbn in G |- *. apply G; [apply extends_refl|]. destruct Hf as [->|(q & w & I & Q & ->)]; [auto|].
        apply str_eqb_eq in Q. rewrite Q. eapply S4, I.
    - cbn [fst snd]. cbn in G. destruct G as [G1 G2]. split; [|split].
      + split; cbn; auto. intros q x I. apply put_spec in I as [I|I]; [eapply S4, I|]. injection I as <- <-. exact G1.
      + apply extends_refl.
      + apply G2, extends_refl.
  Qed.

  (** ** calls are good *)
  Section Call.
    Context (r : runtime A) (Hok : runtime_ok r) (HU : rt_unicode r = U).
    Lemma get_recipe_good v made k go :
      (forall made' rr, extends made made' -> match rr with Ok (id, rec) => nth_error made' id = Some rec | Err _ => True end ->
         (exists o, orders_ok o /\ (let* ir := rr in Ok (snd ir)) = let '(q, op, ns, n) := k in prepare_recipe U o q (op_of_key op) ns n) ->
         good v made' (go rr)) ->
      good v made (get_recipe r k go).
    Proof.
      intros H. destruct k as [[[q op] ns] n]. unfold get_recipe. cbn [good]. intros made' [[id rec]|] X F.
      - destruct F as [F1 (o & Ho & F2)]. apply H; [exact X|exact F1|]. exists o. split; [exact Ho|]. cbn. auto.
      - rewrite HU. destruct (prepare_recipe U (rt_orders r) q (op_of_key op) ns n) as [rec|e] eqn:E.
        + cbn [good]. split; [exists (rt_orders r); split; [apply Hok|exact E]|]. intros m id X' N. apply H; [eapply extends_trans; eauto|exact N|].
          exists (rt_orders r). split; [apply Hok|]. cbn. auto.
        + apply H; [exact X|exact I|]. exists (rt_orders r). split; [apply Hok|]. cbn. auto.
    Qed.
    Lemma get_cooked_good v made id rec shape sizes go : nth_error made id = Some rec ->
      (forall made', extends made made' -> good v made' (go (reconstruct int_ops rec shape sizes))) ->
      good v made (get_cooked (id, rec) shape sizes go).
    Proof.
      intros N H. unfold get_cooked. cbn [fst snd good]. intros made' [k|] X F.
      - destruct F as (rec' & F1 & F2). apply X in N. assert (rec' = rec) by congruence. subst. rewrite <- F2. apply H, X.
      - destruct (reconstruct int_ops rec shape sizes) as [k|e] eqn:E.
        + cbn [good]. split; [exists rec; split; [apply X, N|exact E]|]. intros m X'. apply H. eapply extends_trans; eauto.
        + apply H, X.
    Qed.
    Lemma get_analyzed_good v made pattern op go : good v made (go (analyze_pattern U pattern)) -> good v made (get_analyzed r pattern op go).
    Proof.
      intros H. unfold get_analyzed. rewrite HU. cbn [fst good]. intros made' [k|] X F.
      - rewrite F in H. eapply good_extends; eauto.
      - destruct (analyze_pattern U pattern) as [k|e] eqn:E.
        + cbn [good fst]. split; [exact E|]. intros m X'. eapply good_extends; [|exact H]. eapply extends_trans; eauto.
        + eapply good_extends; eauto.
    Qed.
    Lemma get_compact_good v made pattern go : good v made (go (compactify U pattern)) -> good v made (get_compact r pattern go).
    Proof.
      intros H. unfold get_compact. rewrite HU. cbn [good]. intros made' [k|] X F.
      - rewrite F in H. eapply good_extends; eauto.
      - destruct (compactify U pattern) as [k|e] eqn:E.
        + cbn [good]. split; [exact E|]. intros m X'. eapply good_extends; [|exact H]. eapply extends_trans; eauto.
        + eapply good_extends; eauto.
    Qed.

    Lemma reduction_call_good v made input shape retry finish pattern op (red : reduction (tensor A)) sizes :
      op_of_key op = op_of red ->
      (forall o, orders_ok o ->
         OutTensor (let* x := input in
                    let* rec := prepare_recipe U o pattern (op_of red) (map fst sizes) (length (shape x)) in
                    let* k := reconstruct int_ops rec (shape x) sizes in finish k x) = v) ->
      good v made (reduction_call r input shape retry finish pattern (Some op) sizes).
    Proof.
      intros Eop H. unfold reduction_call. destruct input as [x|e]; [|cbn; apply (H (rt_orders r)), Hok].
      apply get_recipe_good. intros made' rr X N (o & Ho & E). specialize (H o Ho). rewrite Eop in E. cbn [bind] in H. rewrite <- E in H.
      destruct rr as [[id rec]|e]; [|exact H]. apply get_cooked_good; [exact N|]. intros m X'. cbn [good snd]. cbn in H. rewrite <- H.
      destruct (reconstruct int_ops rec (shape x) sizes) as [k|e]; [reflexivity|]. destruct e; try reflexivity. destruct retry; reflexivity.
    Qed.

    Lemma begin_good made c : call_ok c -> good (compute r c) made (begin r c).
    Proof.
      intros Hc. destruct c as [x p red id sizes|x p red id sizes|ts p|x ps p|ts p|x ps p|lib args]; cbn [begin compute call_ok] in *.
      - destruct Hc as [Hn Hk]. destruct (opkey_of red id) as [op|] eqn:Eop; [|contradiction]. apply opkey_of_op in Eop.
        apply (reduction_call_good _ _ _ _ _ _ _ _ red _ Eop). intros o Ho.
        destruct (orders_irrelevant r Hok o sizes Ho Hn x p) as (_ & _ & H & _). f_equal. rewrite H. unfold reduce, api_reduce. cbn. rewrite HU.
        destruct (check_kwargs reserved_kwargs sizes); reflexivity.
      - destruct Hc as [Hn Hk]. destruct (opkey_of red id) as [op|] eqn:Eop; [|contradiction]. apply opkey_of_op in Eop.
        apply (reduction_call_good _ _ _ _ _ _ _ _ red _ Eop). intros o Ho.
        destruct (orders_irrelevant r Hok o sizes Ho Hn x p) as (_ & _ & _ & _ & _ & H). f_equal. rewrite H. unfold xp_reduce_, aa_reduce. cbn. rewrite HU.
        destruct (check_kwargs reserved_kwargs sizes); reflexivity.
      - apply get_analyzed_good. cbn. rewrite <- HU. reflexivity.
      - apply get_analyzed_good. cbn. rewrite <- HU. reflexivity.
      - apply get_analyzed_good. cbn. rewrite <- HU. reflexivity.
      - apply get_analyzed_good. cbn. rewrite <- HU. reflexivity.
      - unfold einsum_with, einsum_given. destruct (last args (inr [])) as [t|pattern] eqn:El.
        + cbn. reflexivity.
        + destruct (length args <=? 1) eqn:E1; [cbn; reflexivity|]. apply get_compact_good. cbn. rewrite <- HU. reflexivity.
    Qed.
  End Call.

  (** ** all interleavings *)
  Definition begins_ok (e : occurrence A) : Prop :=
    match e with Begin r c => runtime_ok r /\ rt_unicode r = U /\ call_ok c | _ => True end.
  Definition all_good (s : workers A) : Prop :=
    sound (memory s) /\ forall r c p, In (r, c, p) (running s) -> good (compute r c) (c_made (memory s)) p.
  Lemma occur_good s e : begins_ok e -> all_good s -> all_good (occur s e).
  Proof.
    intros He [S G]. destruct e as [r c|i|b1 b2 b3 b4]; cbn [CacheThreads.occur].
    - split; [exact S|]. cbn. intros r' c' p I. apply in_app_or in I as [I|[I|[]]]; [auto|]. injection I as <- <- <-. destruct He as (H1 & H2 & H3). apply begin_good; auto.
    - destruct (nth_error (running s) i) as [[[r c] p]|] eqn:E; [|split; assumption].
      destruct (proceed_good (compute r c) p (memory s) S (G _ _ _ (nth_error_In _ _ E))) as (P1 & P2 & P3).
      destruct (proceed p (memory s)) as [p' st'] eqn:Ep. cbn [fst snd] in *. split; [exact P1|]. cbn. intros r' c' q I.
      apply in_update in I as [I|I]; [injection I as -> -> ->; exact P3|]. eapply good_extends; [exact P2|]. apply G, I.
    - destruct S as [S1 S2 S3 S4]. split; [|exact G]. split; cbn.
      + destruct b1; cbn; [contradiction|exact S1].
      + destruct b2; cbn; [contradiction|exact S2].
      + destruct b3; cbn; [contradiction|exact S3].
      + destruct b4; cbn; [contradiction|exact S4].
  Qed.
  Lemma occurred_good es : forall s, (forall e, In e es -> begins_ok e) -> all_good s -> all_good (occurred es s).
  Proof.
    induction es as [|e es IH]; intros s H G; [exact G|]. cbn. apply IH; [intros e' I; apply H; right; exact I|]. apply occur_good; [apply H; left; reflexivity|exact G].
  Qed.
  Lemma idle_good : all_good idle.
  Proof. split; [split; cbn; intros; contradiction|]. cbn. tauto. Qed.

  Lemma unnoticed es r c v : (forall e, In e es -> begins_ok e) -> In (r, c, Return v) (running (occurred es idle)) -> v = compute r c.
  Proof. intros H I. apply (proj2 (occurred_good es idle H idle_good)) in I. exact I. Qed.

  (** ** every call ends *)
  Fixpoint within (n : nat) p : Prop :=
    match p with
    | Return _ => True
    | FindRecipe _ go => match n with O => False | S n => forall f, within n (go f) end
    | StoreRecipe _ _ go => match n with O => False | S n => forall i, within n (go i) end
    | FindCooked _ go => match n with O => False | S n => forall f, within n (go f) end
    | StoreCooked _ _ go => match n with O => False | S n => within n go end
    | FindAnalyzed _ go => match n with O => False | S n => forall f, within n (go f) end
    | StoreAnalyzed _ _ go => match n with O => False | S n => within n go end
    | FindCompact _ go => match n with O => False | S n => forall f, within n (go f) end
    | StoreCompact _ _ go => match n with O => False | S n => within n go end
    end.
  Lemma within_return n v : within n (Return v). Proof. destruct n; exact I. Qed.
  Lemma within_more p : forall n m, n <= m -> within n p -> within m p.
  Proof.
    induction p as [v|k go IH|k rec go IH|k go IH|k v go IH|k go IH|k v go IH|k go IH|k v go IH]; intros [|n] [|m] L W; cbn in *; try lia; try tauto.
    all: try (intros f; apply (IH f n m); [lia|apply W]). all: apply (IH n m); [lia|exact W].
  Qed.
  Lemma within_proceed n p st : within (S n) p -> within n (fst (proceed p st)).
  Proof.
    destruct p as [v|k go|k rec go|k go|k v go|k go|k v go|k go|k v go]; cbn [CacheThreads.proceed]; intros W.
    - apply within_return.
    - destruct (look _ _ _); apply W.
    - apply W.
    - destruct (look _ _ _); apply W.
    - exact W.
    - destruct (look _ _ _); apply W.
    - exact W.
    - destruct (look _ _ _); apply W.
    - exact W.
  Qed.
  Lemma begin_within r c : within 4 (begin r c).
  Proof.
    assert (An : forall q op go, (forall a, exists v, go a = Return v) -> within 4 (@get_analyzed A r q op go)).
    { intros q op go H. unfold get_analyzed. cbn. intros [a|]; [destruct (H (Ok a)) as [v ->]; exact I|].
      destruct (analyze_pattern _ _) as [a|e]; [cbn; destruct (H (Ok a)) as [v ->]; exact I|destruct (H (Err e)) as [v ->]; exact I]. }
    assert (Red : forall input shape retry finish q op sizes, within 4 (@reduction_call A r input shape retry finish q op sizes)).
    { intros input shape retry finish q op sizes. unfold reduction_call. destruct input as [x|e]; [|exact I]. destruct op as [op|]; [|exact I].
      assert (C : forall rec, within 2 (get_cooked rec (shape x) sizes (fun k => Return (OutTensor (let* k0 := match k with
          | Err TypeError => if retry then reconstruct int_ops (snd rec) (shape x) sizes else k | _ => k end in finish k0 x))))).
      { intros rec. cbn. intros [k|]; [exact I|]. destruct (reconstruct _ _ _ _); cbn; exact I. }
      unfold get_recipe. cbn [within]. intros [rec|]; [apply (within_more _ 2 3), C; lia|].
      destruct (prepare_recipe _ _ _ _ _ _) as [rec|e]; [|exact I]. cbn [within]. intros id. apply C. }
    destruct c as [x p red id sizes|x p red id sizes|ts p|x ps p|ts p|x ps p|lib args]; cbn [begin]; auto; try (apply An; eauto).
    destruct (last args (inr [])) as [t|q]; [exact I|]. destruct (length args <=? 1); [exact I|]. unfold get_compact. cbn. intros [a|]; [exact I|].
    destruct (compactify _ _); cbn; exact I.
  Qed.

  Lemma occurred_cons e es s : occurred (e :: es) s = occurred es (occur s e). Proof. reflexivity. Qed.
  Definition is_go (i : nat) (e : occurrence A) : bool := match e with Go j => i =? j | _ => false end.
  Lemma progress es : forall s i n r c p, nth_error (running s) i = Some (r, c, p) -> within n p -> n <= length (filter (is_go i) es) ->
    exists v, nth_error (running (occurred es s)) i = Some (r, c, Return v).
  Proof.
    induction es as [|e es IH]; intros s i n r c p E W L.
    - cbn in L. destruct n; [|lia]. destruct p; cbn in W; try tauto. eauto.
    - rewrite occurred_cons. assert (Li : i < length (running s)) by (apply nth_error_Some; congruence). destruct e as [r' c'|j|b1 b2 b3 b4].
      + apply (IH _ i n r c p); [|exact W|exact L]. cbn. rewrite nth_error_app1 by exact Li. exact E.
      + cbn [filter is_go] in L. destruct (nth_error (running s) j) as [[rc' p']|] eqn:Ej.
        2:{ unfold CacheThreads.occur. rewrite Ej. destruct (Nat.eqb_spec i j) as [->|]; [congruence|]. apply (IH _ i n r c p); auto. }
        unfold CacheThreads.occur. rewrite Ej. destruct (proceed p' (memory s)) as [q st] eqn:Ep.
        assert (Lj : j < length (running s)) by (apply nth_error_Some; congruence).
        destruct (Nat.eqb_spec i j) as [<-|D].
        * rewrite E in Ej. injection Ej as <- <-. cbn [length] in L. apply (IH _ i (pred n) r c q).
          -- cbn [running]. rewrite nth_update, Nat.eqb_refl by exact Lj. reflexivity.
          -- change q with (fst (q, st)). rewrite <- Ep. apply within_proceed. apply (within_more _ n); [lia|exact W].
          -- lia.
        * apply (IH _ i n r c p); [|exact W|exact L]. cbn [running]. rewrite nth_update by exact Lj. destruct (Nat.eqb_spec j i); [congruence|exact E].
      + apply (IH _ i n r c p); auto.
  Qed.
  Lemma call_ends es s r c : 4 <= length (filter (is_go (length (running s))) es) ->
    exists v, nth_error (running (occurred (Begin r c :: es) s)) (length (running s)) = Some (r, c, Return v).
  Proof.
    intros H. rewrite occurred_cons. apply (progress es _ _ 4 r c (begin r c)); [|apply begin_within|exact H].
    cbn. rewrite nth_error_app2, Nat.sub_diag by lia. reflexivity.
  Qed.

  (** ** the caches stay within their limits *)
  Definition bounded (st : @caches Z) : Prop :=
    length (c_recipes st) <= l_recipes lim /\ length (c_cooked st) <= l_cooked lim /\
    length (c_analyzed st) <= l_analyzed lim /\ length (c_compact st) <= l_compact lim.
  Lemma take_key_length {K V} (eqb : K -> K -> bool) k (c : list (K * V)) e others : take_key eqb k c = Some (e, others) -> length c = S (length others).
  Proof.
    revert e others. induction c as [|[k' v'] c IH]; intros e others E; cbn in E; [discriminate|]. destruct (eqb k k').
    - injection E as <- <-. reflexivity.
    - destruct (take_key eqb k c) as [[e' o']|] eqn:E2; [|discriminate]. injection E as <- <-. cbn. rewrite (IH _ _ eq_refl). reflexivity.
  Qed.
  Lemma look_length {K V} (eqb : K -> K -> bool) k (c : list (K * V)) : length (snd (look eqb k c)) = length c.
  Proof. unfold look. destruct (take_key eqb k c) as [[e others]|] eqn:E; [|reflexivity]. cbn. rewrite (take_key_length _ _ _ _ _ E). reflexivity. Qed.
  Lemma put_length {K V} (eqb : K -> K -> bool) n k v (c : list (K * V)) : length c <= n -> length (put eqb n k v c) <= n.
  Proof. unfold put. destruct (take_key eqb k c); [auto|]. intros _. rewrite firstn_length. lia. Qed.
  Lemma proceed_bounded p st : bounded st -> bounded (snd (proceed p st)).
  Proof.
    intros (B1 & B2 & B3 & B4). unfold bounded.
    destruct p as [v|k go|k rec go|k go|k v go|k go|k v go|k go|k v go]; cbn [CacheThreads.proceed]; auto.
    all: try (match goal with |- context [look ?e ?k ?c] => pose proof (look_length e k c) as L; destruct (look e k c) end; cbn in *; lia).
    all: cbn; repeat split; auto; apply put_length; auto.
  Qed.
  Lemma occurred_bounded es : forall s, bounded (memory s) -> bounded (memory (occurred es s)).
  Proof.
    induction es as [|e es IH]; intros s B; [exact B|]. rewrite occurred_cons. apply IH. destruct e as [r c|i|b1 b2 b3 b4]; cbn [CacheThreads.occur].
    - exact B.
    - destruct (nth_error (running s) i) as [[rc p]|]; [|exact B]. pose proof (proceed_bounded p _ B) as B'. destruct (proceed p (memory s)). exact B'.
    - destruct B as (B1 & B2 & B3 & B4). unfold bounded. cbn. destruct b1, b2, b3, b4; cbn; repeat split; auto; lia.
  Qed.
  Lemma always_bounded es : bounded (memory (occurred es idle)).
  Proof. apply occurred_bounded. unfold bounded. cbn. lia. Qed.

  (** ** a call that is not interrupted *)
  Definition solo (n : nat) p (st : @caches Z) := Nat.iter n (fun ps => proceed (fst ps) (snd ps)) (p, st).
  Definition leads p st p' st' (n : nat) : Prop := exists m, m <= n /\ solo m p st = (p', st').
  Lemma solo_step n p st : solo (S n) p st = solo n (fst (proceed p st)) (snd (proceed p st)).
  Proof. unfold solo. rewrite iter_shift. cbn [fst snd]. rewrite <- surjective_pairing. reflexivity. Qed.
  Lemma solo_return n v st : solo n (Return v) st = (Return v, st).
  Proof. induction n as [|n IH]; [reflexivity|]. rewrite solo_step. cbn [CacheThreads.proceed fst snd]. exact IH. Qed.
  Lemma solo_add m n p st : solo (m + n) p st = let ps := solo m p st in solo n (fst ps) (snd ps).
  Proof. revert p st. induction m as [|m IH]; intros p st; [reflexivity|]. cbn [Nat.add]. rewrite !solo_step, IH. reflexivity. Qed.
  Lemma leads_return p st v st' n : leads p st (Return v) st' n -> solo n p st = (Return v, st').
  Proof. intros (m & L & E). replace n with (m + (n - m)) by lia. rewrite solo_add, E. apply solo_return. Qed.
  Lemma leads_trans p st p1 st1 p2 st2 n m : leads p st p1 st1 n -> leads p1 st1 p2 st2 m -> leads p st p2 st2 (n + m).
  Proof. intros (a & La & Ea) (b & Lb & Eb). exists (a + b). split; [lia|]. rewrite solo_add, Ea. exact Eb. Qed.
  Lemma leads_refl p st n : leads p st p st n. Proof. exists 0. split; [lia|reflexivity]. Qed.

  Lemma look_put_lru {K V} (eqb : K -> K -> bool) n k (compute : unit -> result V) c :
    match look eqb k c with
    | (Some v, c') => lru eqb n compute k c = (Ok v, c') /\ take_key eqb k c <> None
    | (None, c') => c' = c /\ take_key eqb k c = None /\
        lru eqb n compute k c = match compute tt with Ok v => (Ok v, put eqb n k v c) | Err e => (Err e, c) end
    end.
  Proof.
    unfold look, lru, put. destruct (take_key eqb k c) as [[e others]|]; [split; [reflexivity|discriminate]|]. split; [reflexivity|]. split; [reflexivity|]. destruct (compute tt); reflexivity.
  Qed.
  Lemma caches_eta (st : @caches Z) : {| c_recipes := c_recipes st; c_cooked := c_cooked st; c_analyzed := c_analyzed st; c_compact := c_compact st; c_made := c_made st |} = st.
  Proof. destruct st; reflexivity. Qed.
  Section Solo.
    Context (r : runtime A).
    Lemma analyzed_solo q op go st : leads (get_analyzed r q op go) st
      (go (fst (cached_analyze lim (rt_unicode r) q op st))) (snd (cached_analyze lim (rt_unicode r) q op st)) 2.
    Proof.
      unfold cached_analyze, get_analyzed.
      pose proof (look_put_lru akey_eqb (l_analyzed lim) (q, op) (fun _ => analyze_pattern (rt_unicode r) q) (c_analyzed st)) as H.
      unfold akey_eqb in H at 2. destruct (look akey_eqb (q, op) (c_analyzed st)) as [[v|] c'] eqn:E.
      - destruct H as [H _]. unfold akey_eqb in H. cbn [fst snd] in H |- *. rewrite H. exists 1. split; [lia|]. cbn. rewrite E. reflexivity.
      - destruct H as (-> & _ & H). unfold akey_eqb in H at 1. cbn [fst snd] in H |- *. rewrite H. destruct (analyze_pattern (rt_unicode r) q) as [v|e] eqn:Ea.
        + exists 2. split; [lia|]. rewrite solo_step. cbn [CacheThreads.proceed]. rewrite E. cbn [fst snd]. try rewrite Ea. reflexivity.
        + exists 1. split; [lia|]. rewrite solo_step. cbn [CacheThreads.proceed]. rewrite E. cbn [fst snd]. try rewrite Ea. reflexivity.
    Qed.
    Lemma compact_solo q go st : leads (get_compact r q go) st
      (go (fst (cached_compactify lim (rt_unicode r) q st))) (snd (cached_compactify lim (rt_unicode r) q st)) 2.
    Proof.
      unfold cached_compactify, get_compact.
      pose proof (look_put_lru str_eqb (l_compact lim) q (fun _ => compactify (rt_unicode r) q) (c_compact st)) as H.
      destruct (look str_eqb q (c_compact st)) as [[v|] c'] eqn:E.
      - destruct H as [H _]. rewrite H. exists 1. split; [lia|]. cbn. rewrite E. reflexivity.
      - destruct H as (-> & _ & H). rewrite H. destruct (compactify (rt_unicode r) q) as [v|e] eqn:Ea.
        + exists 2. split; [lia|]. rewrite solo_step. cbn [CacheThreads.proceed]. rewrite E. cbn [fst snd]. try rewrite Ea. reflexivity.
        + exists 1. split; [lia|]. rewrite solo_step. cbn [CacheThreads.proceed]. rewrite E. cbn [fst snd]. try rewrite Ea. reflexivity.
    Qed.
    Lemma cooked_solo rec shape sizes go st : leads (get_cooked rec shape sizes go) st
      (go (fst (cached_reconstruct int_ops Z.eqb lim rec shape sizes st))) (snd (cached_reconstruct int_ops Z.eqb lim rec shape sizes st)) 2.
    Proof.
      unfold cached_reconstruct, get_cooked.
      pose proof (look_put_lru (ckey_eqb Z.eqb) (l_cooked lim) (fst rec, shape, sizes) (fun _ => reconstruct int_ops (snd rec) shape sizes) (c_cooked st)) as H.
      destruct (look (ckey_eqb Z.eqb) (fst rec, shape, sizes) (c_cooked st)) as [[v|] c'] eqn:E.
      - destruct H as [H _]. rewrite H. exists 1. split; [lia|]. rewrite solo_step. cbn [CacheThreads.proceed]. rewrite E. reflexivity.
      - destruct H as (-> & _ & H). rewrite H. destruct (reconstruct int_ops (snd rec) shape sizes) as [v|e] eqn:Ea.
        + exists 2. split; [lia|]. rewrite solo_step. cbn [CacheThreads.proceed]. rewrite E. cbn [fst snd]. try rewrite Ea. reflexivity.
        + exists 1. split; [lia|]. rewrite solo_step. cbn [CacheThreads.proceed]. rewrite E. cbn [fst snd]. try rewrite Ea. reflexivity.
    Qed.
    Lemma recipe_solo k go st : leads (get_recipe r k go) st
      (go (fst (cached_prepare lim (rt_unicode r) (rt_orders r) k st))) (snd (cached_prepare lim (rt_unicode r) (rt_orders r) k st)) 2.
    Proof.
      destruct k as [[[q op] ns] n]. unfold cached_prepare, get_recipe.
      set (compute := fun _ : unit => let* r0 := prepare_recipe (rt_unicode r) (rt_orders r) q (op_of_key op) ns n in Ok (length (c_made st), r0)).
      pose proof (look_put_lru rkey_eqb (l_recipes lim) (q, op, ns, n) compute (c_recipes st)) as H.
      destruct (look rkey_eqb (q, op, ns, n) (c_recipes st)) as [[v|] c'] eqn:E.
      - destruct H as [H N]. rewrite H. exists 1. split; [lia|]. rewrite solo_step. cbn [CacheThreads.proceed]. rewrite E.
        destruct (take_key rkey_eqb (q, op, ns, n) (c_recipes st)) as [tk|]; [|contradiction]. reflexivity.
      - destruct H as (-> & N & H). rewrite H, N. unfold compute.
        destruct (prepare_recipe (rt_unicode r) (rt_orders r) q (op_of_key op) ns n) as [rec|e] eqn:Ea; cbn [bind].
        + exists 2. split; [lia|]. rewrite solo_step. cbn [CacheThreads.proceed]. rewrite E. cbn [fst snd]. try rewrite Ea. reflexivity.
        + exists 1. split; [lia|]. rewrite solo_step. cbn [CacheThreads.proceed]. rewrite E. cbn [fst snd]. try rewrite Ea. reflexivity.
    Qed.
    Lemma begin_solo c st : solo 4 (begin r c) st = (Return (fst (serve lim r c st)), snd (serve lim r c st)).
    Proof.
      apply leads_return. assert (T : forall l : list Z, forallb (fun _ => true) l = true) by (induction l; auto).
      assert (T' : forall l : list (pystr * Z), forallb (fun s => (fun _ => true) (snd s)) l = true) by (induction l; auto).
      destruct c as [x p red id sizes|x p red id sizes|ts p|x ps p|ts p|x ps p|lib args]; cbn [begin serve].
      - unfold cached_reduce, cached_api_reduce, reduction_call.
        destruct (let* _ := check_kwargs reserved_kwargs sizes in stack_input (rt_backend r) x) as [t|e]; [|apply leads_refl].
        destruct (opkey_of red id) as [op|]; [|apply leads_refl].
        eapply (leads_trans _ _ _ _ _ _ 2 2); [apply recipe_solo|].
        destruct (cached_prepare lim (rt_unicode r) (rt_orders r) (p, op, map fst sizes, length (b_shape (rt_backend r) t)) st) as [[rec|e] st1]; cbn [fst snd]; [|apply leads_refl].
        unfold cooked_for, key_hashable. rewrite T, T'. cbn [andb].
        pose proof (cooked_solo rec (b_shape (rt_backend r) t) sizes (fun k => Return (OutTensor (let* k0 := match k with
          | Err TypeError => reconstruct int_ops (snd rec) (b_shape (rt_backend r) t) sizes | _ => k end in apply_cooked (rt_backend r) k0 t red))) st1) as L.
        destruct (cached_reconstruct int_ops Z.eqb lim rec (b_shape (rt_backend r) t) sizes st1) as [[k|e] st2]; cbn [fst snd] in L |- *; [exact L|]. destruct e; exact L.
      - unfold cached_xp_reduce, reduction_call.
        destruct (let* _ := check_kwargs reserved_kwargs sizes in stack_input_array_api (rt_ns r) x) as [t|e]; [|apply leads_refl].
        destruct (opkey_of red id) as [op|]; [|apply leads_refl].
        eapply (leads_trans _ _ _ _ _ _ 2 2); [apply recipe_solo|].
        destruct (cached_prepare lim (rt_unicode r) (rt_orders r) (p, op, map fst sizes, length (xp_shape (rt_ns r) t)) st) as [[rec|e] st1]; cbn [fst snd]; [|apply leads_refl].
        pose proof (cooked_solo rec (xp_shape (rt_ns r) t) sizes (fun k => Return (OutTensor (let* k0 := match k with
          | Err TypeError => k | _ => k end in apply_cooked_array_api (rt_ns r) k0 t red))) st1) as L.
        destruct (cached_reconstruct int_ops Z.eqb lim rec (xp_shape (rt_ns r) t) sizes st1) as [[k|e] st2]; cbn [fst snd] in L |- *; [exact L|]. destruct e; exact L.
      - unfold cached_pack. pose proof (fun go => analyzed_solo p (lit "pack") go st) as L. destruct (cached_analyze lim (rt_unicode r) p (lit "pack") st) as [a st1].
        eapply (leads_trans _ _ _ _ _ _ 2 2); [apply L|apply leads_refl].
      - unfold cached_unpack. pose proof (fun go => analyzed_solo p (lit "unpack") go st) as L. destruct (cached_analyze lim (rt_unicode r) p (lit "unpack") st) as [a st1].
        eapply (leads_trans _ _ _ _ _ _ 2 2); [apply L|apply leads_refl].
      - unfold cached_xp_pack. pose proof (fun go => analyzed_solo p (lit "pack") go st) as L. destruct (cached_analyze lim (rt_unicode r) p (lit "pack") st) as [a st1].
        eapply (leads_trans _ _ _ _ _ _ 2 2); [apply L|apply leads_refl].
      - unfold cached_xp_unpack. pose proof (fun go => analyzed_solo p (lit "unpack") go st) as L. destruct (cached_analyze lim (rt_unicode r) p (lit "unpack") st) as [a st1].
        eapply (leads_trans _ _ _ _ _ _ 2 2); [apply L|apply leads_refl].
      - unfold cached_einsum. destruct (last args (inr [])) as [t|q]; [apply leads_refl|]. destruct (length args <=? 1); [apply leads_refl|].
        pose proof (fun go => compact_solo q go st) as L. destruct (cached_compactify lim (rt_unicode r) q st) as [a st1].
        eapply (leads_trans _ _ _ _ _ _ 2 2); [apply L|apply leads_refl].
    Qed.
  End Solo.
  Lemma occurred_solo n : forall s i rc p, nth_error (running s) i = Some (rc, p) ->
    memory (occurred (repeat (Go i) n) s) = snd (solo n p (memory s)) /\
    forall j, nth_error (running (occurred (repeat (Go i) n) s)) j = if i =? j then Some (rc, fst (solo n p (memory s))) else nth_error (running s) j.
  Proof.
    induction n as [|n IH]; intros s i rc p E.
    - cbn. split; [reflexivity|]. intros j. destruct (Nat.eqb_spec i j) as [<-|]; auto.
    - cbn [repeat]. rewrite occurred_cons, solo_step. assert (L : i < length (running s)) by (apply nth_error_Some; congruence).
      unfold CacheThreads.occur. rewrite E. destruct (proceed p (memory s)) as [p' st'] eqn:Ep. cbn [fst snd].
      set (s' := {| memory := st'; running := firstn i (running s) ++ (rc, p') :: skipn (S i) (running s) |}).
      assert (N : forall j, nth_error (running s') j = if i =? j then Some (rc, p') else nth_error (running s) j) by (intros j; apply nth_update, L).
      destruct (IH s' i rc p') as [I1 I2]; [rewrite N, Nat.eqb_refl; reflexivity|]. split; [exact I1|]. intros j. rewrite I2. cbn [memory s']. rewrite N. destruct (i =? j); reflexivity.
  Qed.
  Lemma not_interrupted s r c :
    let s' := occurred (Begin r c :: repeat (Go (length (running s))) 4) s in
    memory s' = snd (serve lim r c (memory s)) /\
    nth_error (running s') (length (running s)) = Some (r, c, Return (fst (serve lim r c (memory s)))).
  Proof.
    cbn zeta. rewrite occurred_cons.
    destruct (occurred_solo 4 (occur s (Begin r c)) (length (running s)) (r, c) (begin r c)) as [I1 I2].
    { cbn. rewrite nth_error_app2, Nat.sub_diag by lia. reflexivity. }
    rewrite I1, I2, Nat.eqb_refl. cbn [memory CacheThreads.occur]. rewrite begin_solo. auto.
  Qed.

  (** ** as in the statements *)
  Lemma calls_begun es : forall s, map fst (running (occurred es s)) =
    map fst (running s) ++ flat_map (fun e => match e with Begin r c => [(r, c)] | _ => [] end) es.
  Proof.
    induction es as [|e es IH]; intros s; [cbn; rewrite app_nil_r; reflexivity|]. rewrite occurred_cons, IH. destruct e as [r c|i|b1 b2 b3 b4]; cbn [flat_map app].
    - cbn [CacheThreads.occur running]. rewrite map_app, <- app_assoc. reflexivity.
    - f_equal. unfold CacheThreads.occur. destruct (nth_error (running s) i) as [[rc p]|] eqn:E; [|reflexivity].
      destruct (proceed p (memory s)) as [p' st']. cbn [running].
      assert (X : running s = firstn i (running s) ++ (rc, p) :: skipn (S i) (running s)).
      { clear -E. revert i E. induction (running s) as [|a l IH]; intros [|i] E; cbn in E |- *; try discriminate; [congruence|]. f_equal. apply IH, E. }
      rewrite X at 3. rewrite !map_app. reflexivity.
    - reflexivity.
  Qed.
  Lemma threads_unnoticed es i r c v :
    (forall r c, In (Begin r c) es -> runtime_ok r /\ rt_unicode r = U /\ call_ok c) ->
    nth_error (running (occurred es idle)) i = Some (r, c, Return v) -> v = compute r c.
  Proof.
    intros H E. apply (unnoticed es); [|eapply nth_error_In, E]. intros [r' c'|j|b1 b2 b3 b4] Hin; cbn; auto.
  Qed.
End Facts.
