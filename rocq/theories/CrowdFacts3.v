(** * Calls in several threads: histories *)
From Verif Require Import Py Tensor Parsing Recipe Ops Backends Api ApiFacts6 Packing Einsum Registry SpecGrammar SpecRegistry RegistryFacts Cache CacheFacts
  Layers ListFacts ParseFacts Session SpecSession SessionFacts Threads SpecThreads ThreadFacts CacheThreads CacheThreadFacts Crowd SpecCrowd CrowdFacts CrowdFacts2.

Section History.
  Context {A : Type} (lim : limits) (U : unicode) (fw_of : nat -> option framework) (build : nat -> bclass -> list pystr -> option exn * list pystr).
  Context (library : framework -> runtime A) (lib_einsum : framework -> pystr -> list (tensor A) -> result (tensor A)).
  Context (Hb : honest build) (Hlib : libraries_ok U library).
  Notation sound := (CacheFacts.sound int_ops U).
  Notation occurs := (occurs lim U fw_of build library lib_einsum).
  Notation history := (history lim U fw_of build library lib_einsum).
  Notation right := (right U library lib_einsum).
  Notation refused := (refused U library lib_einsum).
  Notation layer_by := (layer_by U library lib_einsum).
  Notation asks := (asks U library lib_einsum).
  Notation suitable := (suitable U library lib_einsum fw_of).
  Notation fair := (fair U fw_of library lib_einsum).
  Notation good o q calls g := (good U fw_of g (fair o q calls g)).
  Implicit Types (o : orders) (q : request A) (s : crowd A) (e : occasion A) (es : list (occasion A)) (g : ghost (A := A)) (calls : list (orders * request A)).

  Definition calls_of s : list (orders * request A) := map fst (cr_calls s).
  Lemma calls_length s : length (calls_of s) = length (cr_calls s).
  Proof. apply map_length. Qed.
  (** the call that made the layer used by [q] is one of [calls] *)
  Definition has_layer q calls : Prop := match q with UseLayer k _ => k < length calls | _ => True end.
  Lemma layer_by_app fw calls more k : k < length calls -> layer_by fw (calls ++ more) k = layer_by fw calls k.
  Proof. intros H. unfold SpecCrowd.layer_by. rewrite nth_error_app1 by exact H. reflexivity. Qed.
  Lemma right_app fw calls more o q : has_layer q calls -> right fw (calls ++ more) o q = right fw calls o q.
  Proof. intros H. destruct q; try reflexivity. unfold SpecCrowd.right. rewrite layer_by_app by exact H. reflexivity. Qed.
  Lemma asks_app calls more q : has_layer q calls -> asks (calls ++ more) q = asks calls q.
  Proof. intros H. destruct q; try reflexivity. unfold SpecCrowd.asks. rewrite layer_by_app by exact H. reflexivity. Qed.
  Lemma suitable_app calls more q : has_layer q calls -> suitable (calls ++ more) q -> suitable calls q.
  Proof. intros H. destruct q; try (intros X; exact X). unfold SpecCrowd.suitable. rewrite layer_by_app by exact H. auto. Qed.
  Lemma fair_app o q calls more g made reg a L : has_layer q calls -> fair o q calls g made reg a L -> fair o q (calls ++ more) g made reg a L.
  Proof.
    intros H [H1 H2]. split; [|exact H2]. intros S. apply (suitable_app _ _ _ H) in S. unfold SpecCrowd.refused. rewrite !right_app, asks_app by exact H. exact (H1 S).
  Qed.
  Lemma good_weaken g (P Q : list recipe -> registry -> answer A -> option (stored_layer A) -> Prop) t :
    (forall made reg a L, P made reg a L -> Q made reg a L) -> forall made reg, CrowdFacts.good U fw_of g P made reg t -> CrowdFacts.good U fw_of g Q made reg t.
  Proof.
    intros H. induction t as [a L|X a go IH|p go IH]; intros made reg G; cbn in *; [auto| |].
    - destruct G as [G1 G2]. split; [exact G1|]. intros m r v E K V. apply IH, G2; assumption.
    - destruct G as [G1 G2]. split; [exact G1|]. intros m r v E K V. apply IH, G2; assumption.
  Qed.
  Definition call_fine g calls (made : list recipe) reg (c : orders * request A * task A) : Prop :=
    let '(o, q, t) := c in has_layer q calls /\ good o q calls g made reg t.
  Lemma call_fine_app g calls more made reg c : call_fine g calls made reg c -> call_fine g (calls ++ more) made reg c.
  Proof.
    destruct c as [[o q] t]. intros [H1 H2]. split.
    - destruct q; auto. cbn in *. rewrite app_length. lia.
    - apply (good_weaken g (fair o q calls g)); [|exact H2]. intros m r a L. apply fair_app, H1.
  Qed.
  Lemma call_fine_later g calls made made' reg reg' c : extends made made' -> grew reg reg' -> call_fine g calls made reg c -> call_fine g calls made' reg' c.
  Proof.
    intros E G. destruct c as [[o q] t]. intros [H1 H2]. split; [exact H1|]. eapply good_later; [|exact E|exact G|exact H2].
    intros m m' r r' a L. apply fair_later.
  Qed.
  Record all_fine s : Prop := {
    a_caches : sound (cr_caches s);
    a_registry : reg_fine (A := A) fw_of (cr_registry s);
    a_calls : Forall (call_fine no_ghost (calls_of s) (c_made (cr_caches s)) (cr_registry s)) (cr_calls s) }.
  Lemma nobody_fine : all_fine nobody.
  Proof. split; [split; intros; contradiction|split; intros; contradiction|constructor]. Qed.

  Lemma layer_made_held s k L : all_fine s -> layer_made s k = Some L ->
    k < length (calls_of s) /\ exists l, layer_by fw_of (calls_of s) k = [l] /\ layer_held U (c_made (cr_caches s)) L l.
  Proof.
    intros [_ _ H] E. unfold layer_made in E. destruct (nth_error (cr_calls s) k) as [[[o q] [a L'| |]]|] eqn:En; try discriminate. subst L'.
    assert (Hk : nth_error (calls_of s) k = Some (o, q)) by (unfold calls_of; rewrite nth_error_map, En; reflexivity).
    split; [apply nth_error_Some; congruence|].
    pose proof (proj1 (Forall_forall _ _) H _ (nth_error_In _ _ En)) as [_ [_ F]]. destruct (F L eq_refl) as (l & F1 & F2).
    exists l. split; [|exact F2]. unfold SpecCrowd.layer_by. rewrite Hk. exact F1.
  Qed.

  Definition event_ok e : Prop := match e with Enter o q => orders_ok o /\ decent q | _ => True end.
  (** a call that starts *)
  Lemma enter_fine s o q t g : all_fine s -> orders_ok o -> decent q -> (forall x, g_use g x -> served fw_of x (cr_registry s)) ->
    start U library lib_einsum o q (layer_made s) = Some t ->
    call_fine g (calls_of s) (c_made (cr_caches s)) (cr_registry s) (o, q, t).
  Proof.
    intros Hs Ho Hq Hu E. split.
    - destruct q; try exact I. cbn [start has_layer] in *. destruct (layer_made s k) as [L|] eqn:El; [|discriminate]. apply (layer_made_held s k L Hs El).
    - eapply start_good; [exact (proj1 Hlib)|exact (proj2 Hlib)|exact Hu|exact Ho|exact Hq| |exact E].
      intros k L El. apply (layer_made_held s k L Hs El).
  Qed.
  Lemma update_calls {B C} (f : B -> C) l i b b' : nth_error l i = Some b -> f b' = f b -> map f (firstn i l ++ b' :: skipn (S i) l) = map f l.
  Proof.
    intros E H. rewrite map_app. cbn [map]. rewrite H, <- map_cons, <- map_app. f_equal. revert i E. induction l as [|a l IH]; intros [|i] E; cbn in *; try discriminate; [congruence|].
    f_equal. apply IH, E.
  Qed.
  Lemma occurs_steps s e : all_fine s -> event_ok e ->
    all_fine (occurs s e) /\ extends (c_made (cr_caches s)) (c_made (cr_caches (occurs s e))) /\ grew (cr_registry s) (cr_registry (occurs s e)) /\
    (exists more, calls_of (occurs s e) = calls_of s ++ more) /\
    (match e with Loads _ => True | _ => incl (modules (cr_registry s)) (modules (cr_registry (occurs s e))) end).
  Proof.
    intros Hs He. pose proof Hs as [H1 H2 H3]. destruct e as [o q|i|ms|b1 b2 b3 b4]; cbn [Crowd.occurs].
    - destruct He as [Ho Hq]. destruct (start U library lib_einsum o q (layer_made s)) as [t|] eqn:E.
      + cbn. split; [|split; [apply extends_refl|split; [apply grew_refl|split; [|apply incl_refl]]]].
        * split; cbn; [exact H1|exact H2|]. unfold calls_of. cbn [cr_calls]. rewrite map_app. apply Forall_app. split.
          -- eapply Forall_impl; [|exact H3]. intros c. apply call_fine_app.
          -- constructor; [|constructor]. apply call_fine_app. apply (enter_fine s o q t no_ghost Hs Ho Hq); [intros x []|exact E].
        * exists [(o, q)]. unfold calls_of. cbn [cr_calls]. apply map_app.
      + split; [exact Hs|]. split; [apply extends_refl|]. split; [apply grew_refl|]. split; [exists []; symmetry; apply app_nil_r|apply incl_refl].
    - destruct (nth_error (cr_calls s) i) as [[[o q] t]|] eqn:En.
      2:{ split; [exact Hs|]. split; [apply extends_refl|]. split; [apply grew_refl|]. split; [exists []; symmetry; apply app_nil_r|apply incl_refl]. }
      pose proof (proj1 (Forall_forall _ _) H3 _ (nth_error_In _ _ En)) as [F1 F2].
      destruct (proceed lim fw_of build t (cr_registry s) (cr_caches s)) as [[t' reg'] st'] eqn:Ep.
      pose proof (proceed_good lim U fw_of build Hb no_ghost _ t _ _ H1 H2 (incl_nil_l _) F2 t' reg' st' Ep) as (K1 & K2 & K3 & K4 & K5 & K6).
      assert (Ec : map fst (firstn i (cr_calls s) ++ (o, q, t') :: skipn (S i) (cr_calls s)) = calls_of s) by (eapply update_calls; [exact En|reflexivity]).
      cbn [cr_registry cr_caches]. split; [|split; [exact K3|split; [exact K4|split; [|exact K5]]]].
      + split; cbn [cr_registry cr_caches cr_calls]; [exact K1|exact K2|]. unfold calls_of. cbn [cr_calls]. rewrite Ec.
        apply Forall_forall. intros c I. apply in_update in I as [->|I]; [split; assumption|].
        apply (call_fine_later no_ghost (calls_of s) _ _ _ _ c K3 K4). apply (proj1 (Forall_forall _ _) H3 c I).
      + exists []. unfold calls_of at 1. cbn [cr_calls]. rewrite Ec, app_nil_r. reflexivity.
    - cbn. split; [|split; [apply extends_refl|split; [apply grew_eq; reflexivity|split; [exists []; symmetry; apply app_nil_r|exact I]]]].
      split; cbn; [exact H1|split; [exact (rf_loaded _ _ H2)|exact (rf_types _ _ H2)]|].
      eapply Forall_impl; [|exact H3]. intros c. apply call_fine_later; [apply extends_refl|apply grew_eq; reflexivity].
    - cbn. split; [|split; [apply extends_refl|split; [apply grew_refl|split; [exists []; symmetry; apply app_nil_r|apply incl_refl]]]].
      split; cbn; [|exact H2|exact H3]. destruct H1 as [S1 S2 S3 S4]. split; cbn.
      + destruct b1; [contradiction|exact S1].
      + destruct b2; [contradiction|exact S2].
      + destruct b3; [contradiction|exact S3].
      + destruct b4; [contradiction|exact S4].
  Qed.
  Lemma history_fine es : forall s, all_fine s -> (forall e, In e es -> event_ok e) -> all_fine (history es s).
  Proof.
    induction es as [|e es IH]; intros s Hs He; [exact Hs|]. cbn. apply IH; [|intros e' I; apply He; right; exact I].
    apply (occurs_steps s e Hs). apply He. left. reflexivity.
  Qed.

  (** one call, followed from its start *)
  Lemma follow g i es : forall s c, all_fine s -> (forall e, In e es -> event_ok e) -> keeps_modules es (g_ms g) -> incl (g_ms g) (modules (cr_registry s)) ->
    nth_error (cr_calls s) i = Some c -> call_fine g (calls_of s) (c_made (cr_caches s)) (cr_registry s) c ->
    exists c', nth_error (cr_calls (history es s)) i = Some c' /\ fst c' = fst c /\
      call_fine g (calls_of (history es s)) (c_made (cr_caches (history es s))) (cr_registry (history es s)) c'.
  Proof.
    induction es as [|e es IH]; intros s c Hs He Hk Hm Hi Hc; [eauto|]. cbn.
    assert (Hee : event_ok e) by (apply He; left; reflexivity).
    destruct (occurs_steps s e Hs Hee) as (K1 & K2 & K3 & (more & K4) & K5).
    assert (Hm' : incl (g_ms g) (modules (cr_registry (occurs s e)))).
    { destruct e; [eapply incl_tran; eassumption|eapply incl_tran; eassumption| |eapply incl_tran; eassumption]. apply Hk. }
    assert (Hk' : keeps_modules es (g_ms g)) by (destruct e; cbn in Hk; tauto).
    assert (Next : exists c', nth_error (cr_calls (occurs s e)) i = Some c' /\ fst c' = fst c /\
        call_fine g (calls_of s) (c_made (cr_caches (occurs s e))) (cr_registry (occurs s e)) c').
    { assert (Same : nth_error (cr_calls (occurs s e)) i = Some c -> exists c', nth_error (cr_calls (occurs s e)) i = Some c' /\ fst c' = fst c /\
          call_fine g (calls_of s) (c_made (cr_caches (occurs s e))) (cr_registry (occurs s e)) c').
      { intros N. exists c. split; [exact N|]. split; [reflexivity|]. exact (call_fine_later g _ _ _ _ _ c K2 K3 Hc). }
      destruct e as [o q|j|ms|b1 b2 b3 b4]; [| |apply Same; exact Hi|apply Same; exact Hi].
      - apply Same. cbn [Crowd.occurs]. destruct (start U library lib_einsum o q (layer_made s)); [|exact Hi]. cbn [cr_calls].
        rewrite nth_error_app1; [exact Hi|]. apply nth_error_Some. congruence.
      - clear K1 K4 K5 Hm'. cbn [Crowd.occurs] in *. destruct (nth_error (cr_calls s) j) as [[[o q] t]|] eqn:En; [|apply Same; exact Hi].
        destruct (proceed lim fw_of build t (cr_registry s) (cr_caches s)) as [[t' reg'] st'] eqn:Ep. cbn [cr_calls cr_registry cr_caches] in *.
        assert (Hlt : j < length (cr_calls s)) by (apply nth_error_Some; congruence).
        rewrite (nth_update (cr_calls s) j (o, q, t') i Hlt) in *. destruct (Nat.eqb_spec j i) as [->|]; [|apply Same; exact Hi].
        rewrite En in Hi. injection Hi as <-. exists (o, q, t'). split; [reflexivity|]. split; [reflexivity|]. destruct Hc as [Hc1 Hc2]. split; [exact Hc1|].
        apply (proceed_good lim U fw_of build Hb g _ t _ _ (a_caches s Hs) (a_registry s Hs) Hm Hc2 t' reg' st' Ep). }
    destruct Next as (c' & N1 & N2 & N3). destruct (IH (occurs s e) c' K1 (fun e' I => He e' (or_intror I)) Hk' Hm' N1) as (c2 & M1 & M2 & M3).
    - rewrite K4. apply call_fine_app, N3.
    - exists c2. split; [exact M1|]. split; [congruence|exact M3].
  Qed.

  Lemma events_ok es : decent_events es -> forall e, In e es -> event_ok e.
  Proof. intros H e I. destruct e; try exact Logic.I. exact (H _ _ I). Qed.

  (** ** Theorems *)
  Theorem answers es i o q a L : decent_events es ->
    let s := history es nobody in
    nth_error (cr_calls s) i = Some (o, q, Done a L) -> suitable (map fst (cr_calls s)) q ->
    a = right fw_of (map fst (cr_calls s)) o q \/ a = refused (map fst (cr_calls s)) o q.
  Proof.
    intros He s E Hs. pose proof (history_fine es nobody nobody_fine (events_ok es He)) as [_ _ H].
    destruct (proj1 (Forall_forall _ _) H _ (nth_error_In _ _ E)) as [_ [F _]]. destruct (F Hs) as [F'|[F' _]]; auto.
  Qed.
  Lemma one_call es es' o q a L g : decent_events (es ++ Enter o q :: es') ->
    let s := history es nobody in let s1 := occurs s (Enter o q) in let s' := history es' s1 in
    length (cr_calls s1) = S (length (cr_calls s)) ->
    (forall x, g_use g x -> settled fw_of x (cr_registry s)) -> incl (g_ms g) (modules (cr_registry s)) -> keeps_modules es' (g_ms g) ->
    nth_error (cr_calls s') (length (cr_calls s)) = Some (o, q, Done a L) ->
    fair o q (map fst (cr_calls s')) g (c_made (cr_caches s')) (cr_registry s') a L.
  Proof.
    intros He s s1 s' Hst Hu Hm Hk E.
    assert (Hes : decent_events es) by (intros o' q' I; apply He, in_or_app; left; exact I).
    assert (He' : decent_events es') by (intros o' q' I; apply He, in_or_app; right; right; exact I).
    assert (Hoq : orders_ok o /\ decent q) by (apply He, in_or_app; right; left; reflexivity). destruct Hoq as [Ho Hq].
    pose proof (history_fine es nobody nobody_fine (events_ok es Hes)) as Hs. change (Crowd.history lim U fw_of build library lib_einsum es nobody) with s in Hs.
    destruct (occurs_steps s (Enter o q) Hs (conj Ho Hq)) as (K1 & _ & _ & (more & K4) & _). change (Crowd.occurs lim U fw_of build library lib_einsum s (Enter o q)) with s1 in K1, K4.
    destruct (start U library lib_einsum o q (layer_made s)) as [t|] eqn:Et.
    2:{ exfalso. unfold s1 in Hst. cbn [Crowd.occurs] in Hst. rewrite Et in Hst. lia. }
    assert (Hu' : forall x, g_use g x -> served fw_of x (cr_registry s)) by (intros x H; apply settled_served; [apply Hs|exact (Hu x H)]).
    pose proof (enter_fine s o q t g Hs Ho Hq Hu' Et) as Hc.
    assert (Es1 : s1 = {| cr_registry := cr_registry s; cr_caches := cr_caches s; cr_calls := cr_calls s ++ [(o, q, t)] |}).
    { unfold s1. cbn [Crowd.occurs]. rewrite Et. reflexivity. }
    destruct (follow g (length (cr_calls s)) es' s1 (o, q, t) K1 (events_ok es' He') Hk) as (c' & M1 & M2 & M3).
    - rewrite Es1. exact Hm.
    - rewrite Es1. cbn. rewrite nth_error_app2, Nat.sub_diag by lia. reflexivity.
    - rewrite K4. apply call_fine_app. rewrite Es1. exact Hc.
    - change (Crowd.history lim U fw_of build library lib_einsum es' s1) with s' in M1, M3. rewrite E in M1. injection M1 as <-. exact (proj2 M3).
  Qed.
  Theorem in_use es es' o q a L : decent_events (es ++ Enter o q :: es') ->
    let s := history es nobody in let s1 := occurs s (Enter o q) in let s' := history es' s1 in
    length (cr_calls s1) = S (length (cr_calls s)) -> nth_error (cr_calls s') (length (cr_calls s)) = Some (o, q, Done a L) ->
    suitable (map fst (cr_calls s')) q -> (forall x, asks (map fst (cr_calls s')) q = Some x -> settled fw_of x (cr_registry s)) ->
    a = right fw_of (map fst (cr_calls s')) o q.
  Proof.
    intros He s s1 s' Hst E Hs Hu.
    destruct (one_call es es' o q a L {| g_ms := []; g_use := fun x => settled fw_of x (cr_registry s) |} He Hst (fun x H => H) (incl_nil_l _)) as [F _]; [|exact E|].
    - cbn. clear. induction es' as [|e es' IH]; [exact I|]. destruct e; cbn; auto using incl_nil_l.
    - destruct (F Hs) as [F'|(_ & x & F1 & F2 & _)]; [exact F'|]. exfalso. apply F2. cbn. apply Hu, F1.
  Qed.
  Theorem refusal es es' o q a L : decent_events (es ++ Enter o q :: es') ->
    let s := history es nobody in let s1 := occurs s (Enter o q) in let s' := history es' s1 in
    length (cr_calls s1) = S (length (cr_calls s)) -> nth_error (cr_calls s') (length (cr_calls s)) = Some (o, q, Done a L) ->
    suitable (map fst (cr_calls s')) q -> keeps_modules es' (modules (cr_registry s)) -> a <> right fw_of (map fst (cr_calls s')) o q ->
    a = refused (map fst (cr_calls s')) o q /\
    (exists x, asks (map fst (cr_calls s')) q = Some x /\ ~ settled fw_of x (cr_registry s)) /\
    (forall c, In c ours -> In (c_framework c) (modules (cr_registry s)) -> has_backend (c_framework c) (cr_registry s')).
  Proof.
    intros He s s1 s' Hst E Hs Hk Hn.
    destruct (one_call es es' o q a L {| g_ms := modules (cr_registry s); g_use := fun x => settled fw_of x (cr_registry s) |} He Hst (fun x H => H) (incl_refl _) Hk E) as [F _].
    destruct (F Hs) as [F'|(F0 & x & F1 & F2 & F3)]; [contradiction|]. split; [exact F0|]. split; [exists x; auto|exact F3].
  Qed.
  Lemma history_grew es : forall s, all_fine s -> (forall e, In e es -> event_ok e) -> grew (cr_registry s) (cr_registry (history es s)).
  Proof.
    induction es as [|e es IH]; intros s Hs He; [apply grew_refl|]. cbn. assert (Hee : event_ok e) by (apply He; left; reflexivity).
    destruct (occurs_steps s e Hs Hee) as (K1 & _ & K3 & _). eapply grew_trans; [exact K3|]. apply IH; [exact K1|]. intros e' I. apply He. right. exact I.
  Qed.
  Lemma present_settled (x : object A) reg : reg_fine (A := A) fw_of reg ->
    (forall c, In c ours -> accepts fw_of c x = true -> has_backend (c_framework c) reg) ->
    (exists c, In c ours /\ accepts fw_of c x = true) -> settled fw_of x reg.
  Proof.
    intros [H1 _] H (c & O & Ha). destruct (H c O Ha) as [b I]. left. exists (c_framework c, b). split; [exact I|]. cbn.
    destruct (H1 _ _ I) as [E O']. rewrite <- (frameworks_once c (snd b) O O' E). exact Ha.
  Qed.
  Theorem second_try es es' o q a L es2 o2 q2 es3 a2 L2 : decent_events (es ++ Enter o q :: es' ++ es2 ++ Enter o2 q2 :: es3) ->
    let s := history es nobody in let s1 := occurs s (Enter o q) in let s' := history es' s1 in
    length (cr_calls s1) = S (length (cr_calls s)) -> nth_error (cr_calls s') (length (cr_calls s)) = Some (o, q, Done a L) ->
    suitable (map fst (cr_calls s')) q -> keeps_modules es' (modules (cr_registry s)) -> a <> right fw_of (map fst (cr_calls s')) o q ->
    let u := history es2 s' in let u1 := occurs u (Enter o2 q2) in let u' := history es3 u1 in
    length (cr_calls u1) = S (length (cr_calls u)) -> nth_error (cr_calls u') (length (cr_calls u)) = Some (o2, q2, Done a2 L2) ->
    suitable (map fst (cr_calls u')) q2 ->
    (forall x, asks (map fst (cr_calls u')) q2 = Some x -> fw_of (o_type x) <> None /\ present fw_of (modules (cr_registry s)) x) ->
    a2 = right fw_of (map fst (cr_calls u')) o2 q2.
  Proof.
    intros He s s1 s' Hst E Hs Hk Hn u u1 u' Hst2 E2 Hs2 Hp.
    assert (Hd : decent_events (es ++ Enter o q :: es')).
    { intros o' q' I. apply He. apply in_or_app. apply in_app_or in I as [I|[I|I]]; [left; exact I|right; left; exact I|right; right; apply in_or_app; left; exact I]. }
    destruct (refusal es es' o q a L Hd Hst E Hs Hk Hn) as (_ & _ & Hc).
    assert (Eu : u = history (es ++ Enter o q :: es' ++ es2) nobody).
    { unfold u, s', s1, s, Crowd.history. rewrite fold_left_app. cbn [fold_left]. rewrite fold_left_app. reflexivity. }
    assert (Hd2 : decent_events ((es ++ Enter o q :: es' ++ es2) ++ Enter o2 q2 :: es3)).
    { rewrite <- app_assoc. cbn [app]. rewrite <- app_assoc. exact He. }
    assert (Hd3 : decent_events es2) by (intros o' q' I; apply Hd2, in_or_app; left; apply in_or_app; right; right; apply in_or_app; right; exact I).
    assert (Fs : all_fine s').
    { replace s' with (history (es ++ Enter o q :: es') nobody) by (unfold s', s1, s, Crowd.history; rewrite fold_left_app; reflexivity).
      apply history_fine; [apply nobody_fine|apply events_ok, Hd]. }
    pose proof (history_grew es2 s' Fs (events_ok es2 Hd3)) as G. change (Crowd.history lim U fw_of build library lib_einsum es2 s') with u in G.
    pose proof (history_fine es2 s' Fs (events_ok es2 Hd3)) as Fu. change (Crowd.history lim U fw_of build library lib_einsum es2 s') with u in Fu.
    unfold u' in *. unfold u1 in *. rewrite Eu in *. apply (in_use (es ++ Enter o q :: es' ++ es2) es3 o2 q2 a2 L2 Hd2 Hst2 E2 Hs2).
    intros x Hx. destruct (Hp x Hx) as [Hf Hpr]. unfold present in Hpr. destruct (fw_of (o_type x)) as [f|] eqn:Ef; [|contradiction]. destruct Hpr as (c & O & En & Im).
    assert (Ha : accepts fw_of c x = true) by (unfold accepts; rewrite Ef, En; apply str_eqb_iff; reflexivity).
    apply present_settled; [apply Fu| |exists c; auto].
    intros c' O' Ha'. unfold accepts in Ha'. rewrite Ef in Ha'. apply str_eqb_iff in Ha'. rewrite (names_once c' c O' O) by congruence. apply G, Hc; assumption.
  Qed.
End History.
