(** * How often the cached functions are run: the theorems *)
From Verif Require Import Py ListFacts Tensor SpecGrammar SpecPattern SpecOps Parsing Recipe Ops Backends Api Packing Einsum ParseFacts LayerFacts Cache CacheFacts Work SpecWork WorkFacts WorkFacts2.

Lemma recipes_app l l' : recipes_in (l ++ l') = recipes_in l ++ recipes_in l'.
Proof. apply flat_map_app. Qed.
Lemma patterns_app l l' : patterns_in (l ++ l') = patterns_in l ++ patterns_in l'.
Proof. apply flat_map_app. Qed.
Lemma einsums_app l l' : einsums_in (l ++ l') = einsums_in l ++ einsums_in l'.
Proof. apply flat_map_app. Qed.

Section Cooks.
  Context (lim : limits).
  Lemma cooked_other rec shape sizes st : recipes_in (cooked_runs lim rec shape sizes st) = [] /\ patterns_in (cooked_runs lim rec shape sizes st) = [] /\ einsums_in (cooked_runs lim rec shape sizes st) = [].
  Proof.
    unfold cooked_runs, cook_runs, lru_runs. destruct (take_key _ _ _); destruct (cached_reconstruct _ _ _ _ _ _ _) as [[k|[]] st']; repeat split; reflexivity.
  Qed.
  Lemma cook_other rec shape sizes st : recipes_in (cook_runs rec shape sizes st) = [] /\ patterns_in (cook_runs rec shape sizes st) = [] /\ einsums_in (cook_runs rec shape sizes st) = [].
  Proof. unfold cook_runs, lru_runs. destruct (take_key _ _ _); repeat split; reflexivity. Qed.
  Lemma prepare_other k st : patterns_in (prepare_runs k st) = [] /\ einsums_in (prepare_runs k st) = [].
  Proof. unfold prepare_runs, lru_runs. destruct (take_key _ _ _); split; reflexivity. Qed.
End Cooks.

Section Theorems.
  Context {A : Type} (lim : limits) (U : unicode) (HU : unicode_ok U).
  Implicit Types (h : list (event A)) (st : @caches Z).
  Notation akey := (fun a b : pystr * pystr => str_eqb (fst a) (fst b) && str_eqb (snd a) (snd b)).

  Lemma runs_kinds (r : runtime A) c st : rt_unicode r = U ->
    recipes_in (runs lim r c st) = match recipe_asked r c with Some k => recipes_in (prepare_runs k st) | None => [] end /\
    patterns_in (runs lim r c st) = match pattern_asked c with Some k => patterns_in (analyze_runs k st) | None => [] end /\
    einsums_in (runs lim r c st) = match einsum_asked c with Some p => einsums_in (compact_runs p st) | None => [] end.
  Proof.
    intros EU.
    assert (AN : forall k, recipes_in (analyze_runs k st) = [] /\ einsums_in (analyze_runs k st) = []) by (intros k; unfold analyze_runs, lru_runs; destruct (take_key _ _ _); split; reflexivity).
    destruct c as [x p red id sizes|x p red id sizes|ts p|x ps p|ts p|x ps p|lib args]; cbn [runs recipe_asked pattern_asked einsum_asked];
      try (split; [apply AN|]; split; [reflexivity|apply AN]).
    - unfold reduce_runs. destruct (check_kwargs reserved_kwargs sizes) as [u|]; cbn [bind]; [|repeat split; reflexivity].
      destruct (stack_input (rt_backend r) x) as [t|]; [|repeat split; reflexivity]. destruct (opkey_of red id) as [op|]; [|repeat split; reflexivity].
      rewrite EU, shape_rank. set (k := (p, op, map fst sizes, length (shp t))). rewrite recipes_app, patterns_app, einsums_app.
      destruct (prepare_other k st) as [-> ->]. destruct (cached_prepare lim U (rt_orders r) k st) as [[rec|e] st1]; [|cbn; rewrite app_nil_r; repeat split; reflexivity].
      destruct (cooked_other lim rec (b_shape (rt_backend r) t) sizes st1) as (-> & -> & ->). rewrite app_nil_r. repeat split; reflexivity.
    - unfold xp_reduce_runs. destruct (check_kwargs reserved_kwargs sizes) as [u|]; cbn [bind]; [|repeat split; reflexivity].
      destruct (stack_input_array_api (rt_ns r) x) as [t|]; [|repeat split; reflexivity]. destruct (opkey_of red id) as [op|]; [|repeat split; reflexivity].
      rewrite EU, xp_rank. set (k := (p, op, map fst sizes, length (shp t))). rewrite recipes_app, patterns_app, einsums_app.
      destruct (prepare_other k st) as [-> ->]. destruct (cached_prepare lim U (rt_orders r) k st) as [[rec|e] st1]; [|cbn; rewrite app_nil_r; repeat split; reflexivity].
      destruct (cook_other rec (xp_shape (rt_ns r) t) sizes st1) as (-> & -> & ->). rewrite app_nil_r. repeat split; reflexivity.
    - unfold einsum_runs. rewrite <- last_rev. destruct (last args (inr [])) as [t|p]; [repeat split; reflexivity|]. destruct (length args <=? 1); [repeat split; reflexivity|].
      unfold compact_runs, lru_runs. destruct (take_key _ _ _); repeat split; reflexivity.
  Qed.

  Lemma prepare_when k h : Forall (event_ok U) h ->
    once_unless (remembered (recipe_accepted U) (l_recipes lim) (recipe_requests h) k) (recipes_in (prepare_runs k (caches_after lim U h))) k.
  Proof.
    intros F. destruct (keys_after lim U HU h F) as (H & _ & _).
    assert (E := remembered_recent rkey_eqb rkey_eqb_eq (l_recipes lim) (recipe_ok U) (recipe_accepted U) (recipe_requests h) k (recipe_ok_iff U HU)).
    rewrite <- H in E. unfold prepare_runs, lru_runs. split; intros G.
    - apply E in G. destruct (take_key rkey_eqb k (c_recipes (caches_after lim U h))) eqn:T; [reflexivity|]. apply (take_none rkey_eqb rkey_eqb_eq (fun _ => true)) in T. contradiction.
    - destruct (take_key rkey_eqb k (c_recipes (caches_after lim U h))) eqn:T; [|reflexivity]. exfalso. apply G, E.
      destruct (in_dec (key_dec rkey_eqb rkey_eqb_eq) k (map fst (c_recipes (caches_after lim U h)))) as [Hi|Hi]; [exact Hi|]. apply (take_none rkey_eqb rkey_eqb_eq (fun _ => true)) in Hi. congruence.
  Qed.
  Lemma analyze_when k h : Forall (event_ok U) h ->
    once_unless (remembered (pattern_accepted U) (l_analyzed lim) (pattern_requests h) k) (patterns_in (analyze_runs k (caches_after lim U h))) k.
  Proof.
    intros F. destruct (keys_after lim U HU h F) as (_ & H & _).
    assert (E := remembered_recent akey akey_eqb_eq (l_analyzed lim) (pattern_ok U) (pattern_accepted U) (pattern_requests h) k (pattern_ok_iff U)).
    rewrite <- H in E. unfold analyze_runs, lru_runs. split; intros G.
    - apply E in G. destruct (take_key akey k (c_analyzed (caches_after lim U h))) eqn:T; [reflexivity|]. apply (take_none akey akey_eqb_eq (fun _ => true)) in T. contradiction.
    - destruct (take_key akey k (c_analyzed (caches_after lim U h))) eqn:T; [|reflexivity]. exfalso. apply G, E.
      destruct (in_dec (key_dec akey akey_eqb_eq) k (map fst (c_analyzed (caches_after lim U h)))) as [Hi|Hi]; [exact Hi|]. apply (take_none akey akey_eqb_eq (fun _ => true)) in Hi. congruence.
  Qed.
  Lemma compact_when p h : Forall (event_ok U) h ->
    once_unless (remembered (einsum_accepted U) (l_compact lim) (einsum_requests h) p) (einsums_in (compact_runs p (caches_after lim U h))) p.
  Proof.
    intros F. destruct (keys_after lim U HU h F) as (_ & _ & H).
    assert (E := remembered_recent str_eqb str_eqb_eq (l_compact lim) (compact_ok U) (einsum_accepted U) (einsum_requests h) p (compact_ok_iff U)).
    rewrite <- H in E. unfold compact_runs, lru_runs. split; intros G.
    - apply E in G. destruct (take_key str_eqb p (c_compact (caches_after lim U h))) eqn:T; [reflexivity|]. apply (take_none str_eqb str_eqb_eq (fun _ => true)) in T. contradiction.
    - destruct (take_key str_eqb p (c_compact (caches_after lim U h))) eqn:T; [|reflexivity]. exfalso. apply G, E.
      destruct (in_dec (key_dec str_eqb str_eqb_eq) p (map fst (c_compact (caches_after lim U h)))) as [Hi|Hi]; [exact Hi|]. apply (take_none str_eqb str_eqb_eq (fun _ => true)) in Hi. congruence.
  Qed.

  (** ** one event after another *)
  Section Once.
    Context {K : Type} (dec : forall a b : K, {a = b} + {a <> b}) (P : K -> Prop) (m : nat) (asked : event A -> option K) (clears : event A -> bool).
    Context (kind : list body -> list K) (kind_nil : kind [] = []) (kind_app : forall l l', kind (l ++ l') = kind l ++ kind l').
    Context (kind_step : forall e h, Forall (event_ok U) (e :: h) -> clears e = false ->
      match asked e with
      | Some k => once_unless (remembered P m (requests asked clears h) k) (kind (event_runs lim e (caches_after lim U h))) k
      | None => kind (event_runs lim e (caches_after lim U h)) = []
      end).
    Lemma kind_once h : Forall (event_ok U) h -> (forall e, In e h -> clears e = false) -> fewer_than P (S m) (requests asked clears h) ->
      forall k, (P k -> In k (requests asked clears h) -> exactly_once k (kind (work lim U h))) /\
                (~ In k (requests asked clears h) -> ~ In k (kind (work lim U h))).
    Proof.
      induction h as [|e h IH]; intros F Hc Hf k; [split; [intros _ []|cbn [work]; rewrite kind_nil; auto]|].
      assert (Hce : clears e = false) by (apply Hc; left; reflexivity). pose proof (kind_step e h F Hce) as S. inversion_clear F as [|? ? He Fh].
      cbn [requests work] in *. rewrite Hce in *. rewrite kind_app. set (ks := requests asked clears h) in *. set (w := kind (work lim U h)) in *.
      destruct (asked e) as [q|]; [|rewrite S; apply IH; auto; intros e' He'; apply Hc; right; exact He'].
      assert (Hf' : fewer_than P (Datatypes.S m) ks) by (intros l Hn Hl; apply Hf; [exact Hn|]; intros x Hx; destruct (Hl x Hx); split; [right|]; assumption).
      assert (IH' := fun k => IH Fh (fun e' He' => Hc e' (or_intror He')) Hf' k). clear IH.
      assert (Rem : P q -> In q ks -> remembered P m ks q).
      { intros Hq Hi. split; [exact Hq|]. clear - dec Hi Hf Hq.
        assert (L : exists later earlier, ks = later ++ q :: earlier /\ ~ In q later).
        { clear - dec Hi. induction ks as [|x ks IH]; [destruct Hi|]. destruct (dec x q) as [->|Hx]; [exists [], ks; split; [reflexivity|intros []]|].
          destruct Hi as [Hi|Hi]; [contradiction|]. destruct (IH Hi) as (later & earlier & -> & Hn). exists (x :: later), earlier. split; [reflexivity|]. intros [E|E]; contradiction. }
        destruct L as (later & earlier & -> & Hn). exists later, earlier. split; [reflexivity|]. split; [exact Hn|]. intros l Hnl Hl.
        enough (length (q :: l) < S m) by (cbn in *; lia). apply Hf.
        - constructor; [|exact Hnl]. intros Hx. destruct (Hl q Hx) as [Hx' _]. contradiction.
        - intros x [<-|Hx]; [split; [left; reflexivity|exact Hq]|]. destruct (Hl x Hx) as [H1 H2]. split; [right; apply in_or_app; left; exact H1|exact H2]. }
      assert (Not : ~ In q ks -> ~ remembered P m ks q).
      { intros Hn (_ & later & earlier & -> & _). apply Hn. apply in_or_app. right. left. reflexivity. }
      destruct S as [S1 S2]. split.
      - intros Hk Hi. destruct (dec k q) as [->|Hkq].
        + destruct (in_dec dec q ks) as [Hq|Hq].
          * rewrite (S1 (Rem Hk Hq)). apply IH'; assumption.
          * rewrite (S2 (Not Hq)). exists [], w. split; [reflexivity|]. split; [intros []|]. apply IH'. exact Hq.
        + assert (Hik : In k ks) by (destruct Hi as [Hi|Hi]; [congruence|exact Hi]). destruct (proj1 (IH' k) Hk Hik) as (l1 & l2 & E & G1 & G2).
          assert (C : remembered P m ks q \/ ~ remembered P m ks q -> exactly_once k (kind (event_runs lim e (caches_after lim U h)) ++ w)).
          { intros [C|C]; [rewrite (S1 C); exists l1, l2; auto|]. rewrite (S2 C), E. exists (q :: l1), l2. split; [reflexivity|]. split; [|exact G2]. intros [X|X]; [congruence|contradiction]. }
          (* either way, what is run is [] or [q] *)
          destruct (in_dec dec q ks) as [Hq|Hq]; [|apply C; right; apply Not, Hq].
          destruct (kind (event_runs lim e (caches_after lim U h))) as [|x l] eqn:Ek.
          * exists l1, l2. auto.
          * apply C. right. intros R. discriminate (S1 R).
      - intros Hn. assert (Hkq : k <> q) by (intros ->; apply Hn; left; reflexivity). assert (Hnk : ~ In k ks) by (intros X; apply Hn; right; exact X).
        intros Hi. apply in_app_or in Hi as [Hi|Hi]; [|exact (proj2 (IH' k) Hnk Hi)].
        destruct (kind (event_runs lim e (caches_after lim U h))) as [|x l] eqn:Ek; [destruct Hi|].
        assert (R : ~ remembered P m ks q) by (intros R; pose proof (S1 R); congruence). specialize (S2 R). rewrite S2 in Hi. destruct Hi as [Hi|[]]. congruence.
    Qed.
    (** what is refused is done each time *)
    Lemma kind_refused h k : Forall (event_ok U) h -> (forall e, In e h -> clears e = false) -> ~ P k ->
      count_occ dec (kind (work lim U h)) k = count_occ dec (requests asked clears h) k.
    Proof.
      intros F Hc Hk. induction h as [|e h IH]; [cbn [work]; rewrite kind_nil; reflexivity|].
      assert (Hce : clears e = false) by (apply Hc; left; reflexivity). pose proof (kind_step e h F Hce) as S. inversion_clear F as [|? ? He Fh].
      specialize (IH Fh (fun e' He' => Hc e' (or_intror He'))). cbn [requests work] in *. rewrite Hce. rewrite kind_app, count_occ_app, IH.
      destruct (asked e) as [q|]; [|rewrite S; reflexivity]. destruct S as [S1 S2]. destruct (dec q k) as [->|Hq].
      - rewrite S2 by (intros (X & _); contradiction). cbn. destruct (dec k k); [reflexivity|contradiction].
      - cbn [count_occ]. destruct (dec q k); [contradiction|].
        destruct (kind (event_runs lim e (caches_after lim U h))) as [|x l] eqn:Ek; [reflexivity|].
        rewrite S2 by (intros R; discriminate (S1 R)). cbn. destruct (dec q k); [contradiction|reflexivity].
    Qed.
  End Once.

  Lemma recipes_step (e : event A) h : Forall (event_ok U) (e :: h) -> match e with Cleared b _ _ _ => b | _ => false end = false ->
    match (match e with Called r c => recipe_asked r c | LayerMade _ k => Some k | _ => None end) with
    | Some k => once_unless (remembered (recipe_accepted U) (l_recipes lim) (recipe_requests h) k) (recipes_in (event_runs lim e (caches_after lim U h))) k
    | None => recipes_in (event_runs lim e (caches_after lim U h)) = []
    end.
  Proof.
    intros F Hc. inversion_clear F as [|? ? He Fh]. destruct e as [r c|o k|rec shape sizes|b1 b2 b3 b4]; cbn [event_runs event_ok] in *.
    - destruct He as [Hr EU]. destruct (runs_kinds r c (caches_after lim U h) EU) as (E & _ & _). rewrite E. destruct (recipe_asked r c) as [k|]; [|reflexivity]. apply prepare_when, Fh.
    - apply prepare_when, Fh.
    - apply cooked_other.
    - reflexivity.
  Qed.
  Lemma patterns_step (e : event A) h : Forall (event_ok U) (e :: h) -> match e with Cleared _ _ b _ => b | _ => false end = false ->
    match (match e with Called _ c => pattern_asked c | _ => None end) with
    | Some k => once_unless (remembered (pattern_accepted U) (l_analyzed lim) (pattern_requests h) k) (patterns_in (event_runs lim e (caches_after lim U h))) k
    | None => patterns_in (event_runs lim e (caches_after lim U h)) = []
    end.
  Proof.
    intros F Hc. inversion_clear F as [|? ? He Fh]. destruct e as [r c|o k|rec shape sizes|b1 b2 b3 b4]; cbn [event_runs event_ok] in *.
    - destruct He as [Hr EU]. destruct (runs_kinds r c (caches_after lim U h) EU) as (_ & E & _). rewrite E. destruct (pattern_asked c) as [k|]; [|reflexivity]. apply analyze_when, Fh.
    - apply prepare_other.
    - apply cooked_other.
    - reflexivity.
  Qed.
  Lemma einsums_step (e : event A) h : Forall (event_ok U) (e :: h) -> match e with Cleared _ _ _ b => b | _ => false end = false ->
    match (match e with Called _ c => einsum_asked c | _ => None end) with
    | Some k => once_unless (remembered (einsum_accepted U) (l_compact lim) (einsum_requests h) k) (einsums_in (event_runs lim e (caches_after lim U h))) k
    | None => einsums_in (event_runs lim e (caches_after lim U h)) = []
    end.
  Proof.
    intros F Hc. inversion_clear F as [|? ? He Fh]. destruct e as [r c|o k|rec shape sizes|b1 b2 b3 b4]; cbn [event_runs event_ok] in *.
    - destruct He as [Hr EU]. destruct (runs_kinds r c (caches_after lim U h) EU) as (_ & _ & E). rewrite E. destruct (einsum_asked c) as [k|]; [|reflexivity]. apply compact_when, Fh.
    - apply prepare_other.
    - apply cooked_other.
    - reflexivity.
  Qed.
End Theorems.
