(** * Calls in several threads: a call that is not interrupted *)
From Verif Require Import Py Tensor Parsing Recipe Ops Backends Api ApiFacts6 Packing Einsum Registry SpecGrammar SpecRegistry RegistryFacts Cache CacheFacts
  Layers ListFacts ParseFacts Session SpecSession SessionFacts Threads SpecThreads ThreadFacts CacheThreads CacheThreadFacts Crowd SpecCrowd CrowdFacts CrowdFacts2 CrowdFacts3 CrowdFacts4.

Section Lone.
  Context {A : Type} (lim : limits) (U : unicode) (fw_of : nat -> option framework) (build : nat -> bclass -> list pystr -> option exn * list pystr).
  Context (library : framework -> runtime A) (lib_einsum : framework -> pystr -> list (tensor A) -> result (tensor A)).
  Context (Hb : honest build) (Hlib : libraries_ok U library).
  Notation occurs := (occurs lim U fw_of build library lib_einsum).
  Notation history := (history lim U fw_of build library lib_einsum).
  Notation asks := (asks U library lib_einsum).
  Notation right := (right U library lib_einsum).
  Notation refused := (refused U library lib_einsum).
  Notation suitable := (suitable U library lib_einsum fw_of).
  Notation all_fine := (all_fine U fw_of library lib_einsum).
  Notation advance := (advance o_type (accepts fw_of (A := A)) build).
  Implicit Types (o : orders) (q : request A) (s : crowd A) (e : occasion A) (es : list (occasion A)) (x : object A) (p : point (object A)).

  (** ** no type, no backend *)
  Lemma refused_right calls o q x : asks calls q = Some x -> fw_of (o_type x) = None -> refused calls o q = right fw_of calls o q.
  Proof.
    intros Ha N.
    destruct q as [y p red id sizes|y p|y|y|args|ts p|y ps p|f c|torch p sizes|torch p red id sizes|k y]; unfold SpecCrowd.refused, SpecCrowd.right, SpecCrowd.asks in *; cbn [answer_to fst snd] in *; try discriminate.
    - rewrite Ha. unfold known. rewrite N. reflexivity.
    - injection Ha as ->. unfold known. rewrite N. reflexivity.
    - injection Ha as ->. unfold known. rewrite N. reflexivity.
    - injection Ha as ->. unfold known. rewrite N. reflexivity.
    - destruct args as [|[y|] args]; try discriminate. injection Ha as ->. 
      destruct args as [|b args]; [reflexivity|]. rewrite N. reflexivity.
    - destruct ts as [|y ts]; [discriminate|]. cbn in Ha. injection Ha as ->. unfold known. rewrite N. reflexivity.
    - injection Ha as ->. unfold known. rewrite N. reflexivity.
    - rewrite (layer_by_any U library lib_einsum fw_of (fun _ => None)). destruct (layer_by U library lib_einsum (fun _ => None) calls k) as [|[[|] L] ls]; cbn; try reflexivity; try discriminate.
      injection Ha as ->. unfold known. rewrite N. reflexivity.
  Qed.

  (** ** the answer if get_backend finds the backend *)
  Definition wanted : ghost (A := A) := {| g_ms := []; g_use := fun x => exists c, In c ours /\ accepts fw_of c x = true |}.
  (** a registry with all backends *)
  Definition full : registry := {| loaded := map (fun c => (c_framework c, (0, c))) ours; by_type := []; modules := []; clock := 0; attempts := [] |}.
  Section One.
    Context (o : orders) (q : request A) (calls : list (orders * request A)).
    Notation fair := (fair U fw_of library lib_einsum o q calls wanted).
    Fixpoint clean (made : list recipe) (t : task A) : Prop :=
      match t with
      | Done a L => fair made full a L
      | Access a go => may U a made /\ forall made' v, extends made made' -> gives U a made' v -> clean made' (go v)
      | Ask p go => forall made' r, extends made made' -> r = known fw_of (subject p) Ok -> clean made' (go r)
      end.
    Lemma good_clean t : forall made, CrowdFacts.good U fw_of wanted fair made full t -> clean made t.
    Proof.
      induction t as [a L|X a go IH|p go IH]; cbn; intros made H; [exact H| |].
      - destruct H as [H1 H2]. split; [exact H1|]. intros made' v E G. apply IH, H2; [exact E|apply grew_refl|exact G].
      - destruct H as [H1 H2]. intros made' r E ->. apply IH, H2; [exact E|apply grew_refl|left; reflexivity].
    Qed.
    Lemma clean_later t : forall made made', extends made made' -> clean made t -> clean made' t.
    Proof.
      destruct t as [a L|X a go|p go]; cbn; intros made made' E H.
      - eapply fair_later; [exact E|apply grew_refl|exact H].
      - destruct H as [H1 H2]. split; [exact (may_extends U a _ _ E H1)|]. intros m v E'. apply H2. exact (extends_trans _ _ _ E E').
      - intros m r E'. apply H. exact (extends_trans _ _ _ E E').
    Qed.
  End One.
  Lemma start_clean o q s t : all_fine s -> orders_ok o -> decent q -> start U library lib_einsum o q (layer_made s) = Some t ->
    clean o q (map fst (cr_calls s)) (c_made (cr_caches s)) t.
  Proof.
    intros Hs Ho Hq Et. apply good_clean. apply (start_good U (proj1 Hlib) fw_of library lib_einsum (proj2 Hlib) o q _ wanted _ full (layer_made s) t); [|exact Ho|exact Hq| |exact Et].
    - intros x (c & O & Ha). exists c. split; [exact O|]. split; [exact Ha|]. exists (0, c). apply in_map_iff. exists c. auto.
    - intros k L El. destruct (layer_made_held U fw_of library lib_einsum s k L Hs El) as (_ & l & H1 & H2). exists l. auto.
  Qed.

  (** ** get_backend while the other calls wait *)
  Section Seek.
    Context (x : object A) (c : bclass) (O : In c ours) (Ha : accepts fw_of c x = true).
    Definition without (reg : registry) : Prop := ~ has_backend (c_framework c) reg.
    Definition seeking p reg : Prop :=
      match p with
      | AtStart _ _ | AtList _ _ | Scanning _ _ _ => without reg
      | Looking _ cs => without reg /\ In c cs
      | Checking _ c' cs | Building _ c' cs => without reg /\ In c (c' :: cs)
      | Storing _ b cs => without reg /\ In c (snd b :: cs)
      | Testing _ b cs => snd b = c \/ (without reg /\ In c cs)
      | Finished _ r => exists b, r = Ok b
      end.
    Definition only : ghost (A := A) := {| g_ms := []; g_use := fun y => y = x |}.
    Definition lone p reg : Prop := subject p = x /\ (asking fw_of only p reg \/ (placed fw_of p reg /\ seeking p reg)).
    Lemma lone_start reg : lone (AtStart einops_backends x) reg.
    Proof.
      split; [reflexivity|]. destruct (in_dec (list_eq_dec N.eq_dec) (c_framework c) (map fst (loaded reg))) as [I|I].
      - left. apply asking_start. intros _. apply in_map_iff in I as ([fw b] & E & I). cbn in E. subst fw. exists c. split; [exact O|]. split; [exact Ha|]. exists b. exact I.
      - right. split; [reflexivity|]. intros [b J]. apply I. apply in_map_iff. exists (c_framework c, b). auto.
    Qed.
    Lemma seeking_same p reg reg' : loaded reg' = loaded reg -> seeking p reg -> seeking p reg'.
    Proof.
      intros E. assert (K : without reg -> without reg') by (intros H [b I]; apply H; exists b; rewrite <- E; exact I).
      destruct p; cbn; auto; try tauto.
    Qed.
    Lemma lone_same p reg reg' : loaded reg' = loaded reg -> lone p reg -> lone p reg'.
    Proof.
      intros E (H0 & [H|(H1 & H2)]); (split; [exact H0|]).
      - left. eapply asking_grew; [|exact H]. apply grew_eq, E.
      - right. split; [|eapply seeking_same; eassumption]. eapply placed_grew; [|exact H1]. apply grew_eq, E.
    Qed.
    Lemma seeking_advance p reg : subject p = x -> placed fw_of p reg -> In (c_framework c) (modules reg) -> seeking p reg ->
      seeking (fst (advance p reg)) (snd (advance p reg)).
    Proof.
      intros Ex Hp Hm H.
      destruct p as [roots y|roots y|roots y [|[fw b] items]|y [|c' cs]|y c' cs|y c' cs|y b cs|y b cs|y r]; cbn [Threads.advance subject] in *; try subst y.
      - destruct (find_key _ _ _) as [b|]; cbn; [eauto|exact H].
      - exact H.
      - cbn in *. split; [exact H|]. destruct Hp as [-> _]. apply (Permutation_in _ (Permutation_sym (all_subclasses_perm einops_backends))), O.
      - destruct (accepts fw_of (snd b) x); cbn; [eauto|exact H].
      - cbn in H. destruct H as [_ []].
      - cbn in H. destruct H as [H1 H2]. destruct (find_key str_eqb (c_framework c') (loaded reg)) as [b|] eqn:E; cbn; [|split; assumption].
        split; [exact H1|]. destruct H2 as [->|H2]; [|exact H2]. exfalso. apply H1.
        destruct (in_dec (list_eq_dec N.eq_dec) (c_framework c) (map fst (loaded reg))) as [I|I].
        + apply in_map_iff in I as ([fw b'] & E' & I). cbn in E'. subst fw. exists b'. exact I.
        + apply (find_key_None str_eqb str_eqb_iff) in I. congruence.
      - cbn in H. destruct H as [H1 H2]. destruct (str_mem (c_framework c') (modules reg)) eqn:E; cbn; split; auto.
        destruct H2 as [->|H2]; [|exact H2]. apply str_mem_In in Hm. congruence.
      - cbn in H. destruct H as [H1 H2]. unfold construct. pose proof (proj1 (Hb (clock reg) c' (modules reg))) as F.
        destruct (build (clock reg) c' (modules reg)) as [fl ms']. cbn in F. subst fl. cbn. split; [exact H1|exact H2].
      - cbn in H. destruct H as [H1 H2]. cbn. destruct H2 as [->|H2]; [left; reflexivity|].
        destruct (in_dec (list_eq_dec N.eq_dec) (c_framework c) [c_framework (snd b)]) as [[E|[]]|N].
        + left. apply frameworks_once; [apply Hp; left; reflexivity|exact O|exact E].
        + right. split; [|exact H2]. intros [b' I]. cbn in I. apply put_key_in in I as [I|(_ & [I|I])].
          * apply H1. exists b'. exact I.
          * apply N. left. auto.
          * apply N. left. apply str_eqb_iff in I. exact I.
      - cbn in H. destruct H as [<-|[H1 H2]]; [rewrite Ha; cbn; eauto|]. destruct (accepts fw_of (snd b) x); cbn; [eauto|split; assumption].
      - exact H.
    Qed.
    Lemma lone_advance p reg : reg_fine fw_of (A := A) reg -> In (c_framework c) (modules reg) -> lone p reg -> lone (fst (advance p reg)) (snd (advance p reg)).
    Proof.
      intros Hr Hm (H0 & H). split; [rewrite advance_subject; exact H0|]. destruct H as [H|[H1 H2]].
      - left. apply (asking_advance fw_of build Hb only p reg Hr); [apply incl_nil_l|exact H].
      - right. split; [apply (advance_placed fw_of build p reg Hr H1)|apply seeking_advance; assumption].
    Qed.
    Lemma lone_end r reg : lone (Finished x r) reg -> found r = known fw_of x Ok.
    Proof.
      intros (_ & [H|[H1 [b ->]]]).
      - destruct (asking_end fw_of only x r reg H) as [E|(_ & E & _)]; [exact E|]. exfalso. apply E. reflexivity.
      - cbn in H1. destruct H1 as (O' & (y & Ey & Hy) & _). unfold found. cbn [bind]. unfold known, accepts in *. rewrite Ey in Hy. destruct (fw_of (o_type x)) as [f|]; [|discriminate].
        apply str_eqb_iff in Hy. rewrite (framework_found (snd b) f O' Hy). reflexivity.
    Qed.

    (** ** the call *)
    Definition stands o q calls (made : list recipe) reg (t : task A) : Prop :=
      clean o q calls made t /\ (exists n, running (Some x) t n) /\ match t with Ask p _ => lone p reg | _ => True end.
    Lemma shape_stands o q calls made reg t n : clean o q calls made t -> shape (Some x) t n -> stands o q calls made reg t.
    Proof.
      intros H1 H2. split; [exact H1|]. split; [exists n; apply shape_running, H2|]. destruct t as [| |p go]; try exact I.
      cbn in H2. destruct H2 as ((y & E & ->) & _). injection E as <-. apply lone_start.
    Qed.
    Lemma proceed_stands o q calls t reg st t' reg' st' : CacheFacts.sound int_ops U st -> reg_fine fw_of (A := A) reg -> NoDup (map fst (loaded reg)) -> In (c_framework c) (modules reg) ->
      match t with Ask p _ => placed fw_of p reg | _ => True end ->
      stands o q calls (c_made st) reg t -> proceed lim fw_of build t reg st = (t', reg', st') ->
      stands o q calls (c_made st') reg' t'.
    Proof.
      intros Hs Hr Hn Hm Hp (H1 & (n & H2) & H3) E. pose proof E as E0. destruct t as [a L|X a go|p go]; cbn [Crowd.proceed] in E.
      - injection E as <- <- <-. split; [exact H1|]. split; [exists n; exact H2|exact I].
      - cbn in H1. destruct H1 as [M G]. destruct (perform_good lim U a st Hs M) as (K1 & K2 & K3). destruct (perform lim a st) as [v st2]. injection E as <- <- <-. cbn [fst snd] in *.
        cbn in H2. destruct H2 as (m & _ & H2). apply (shape_stands _ _ _ _ _ _ m); [apply G; assumption|apply H2].
      - assert (Adv : (let '(p', reg2) := advance p reg in (Ask p' go, reg2, st)) = (t', reg', st') -> stands o q calls (c_made st') reg' t').
        { intros E'. destruct (proceed_running fw_of build lim (Some x) (Ask p go) n reg st t' reg' st' H2 (loaded_few (A := A) fw_of reg Hr Hn) Hp E0) as [R _].
          pose proof (lone_advance p reg Hr Hm H3) as L. pose proof (advance_subject fw_of build p reg) as Es. destruct (advance p reg) as [p' reg2]. injection E' as <- <- <-. cbn [fst snd] in *.
          split; [|split; [exists (pred n); exact R|exact L]]. cbn in H1 |- *. rewrite Es. exact H1. }
        destruct p as [| | | | | | | |y r]; try (apply Adv; exact E). injection E as <- <- <-.
        pose proof H3 as (Ey & _). cbn in Ey. subst y. cbn in H2. destruct H2 as (_ & m & _ & H2). apply (shape_stands _ _ _ _ _ _ m); [|apply H2].
        cbn in H1. apply H1; [apply extends_refl|]. exact (lone_end r reg H3).
    Qed.
    Lemma stands_alone i o q calls es : forall s t, all_fine s -> keys_once s -> (forall e, In e es -> event_ok e) -> In (c_framework c) (modules (cr_registry s)) ->
      keeps_modules es [c_framework c] -> (forall j, In (Move j) es -> j = i) ->
      nth_error (cr_calls s) i = Some (o, q, t) -> stands o q calls (c_made (cr_caches s)) (cr_registry s) t ->
      exists t', nth_error (cr_calls (history es s)) i = Some (o, q, t') /\ stands o q calls (c_made (cr_caches (history es s))) (cr_registry (history es s)) t'.
    Proof.
      induction es as [|e es IH]; intros s t Hs Hk He Hm Hkm Hj Hi Ht; [eauto|]. cbn.
      assert (Hee : event_ok e) by (apply He; left; reflexivity).
      destruct (occurs_steps lim U fw_of build library lib_einsum Hb Hlib s e Hs Hee) as (K1 & K2 & K3 & _ & K5). pose proof (occurs_keys lim U fw_of build library lib_einsum s e Hk) as Hk'.
      assert (Hm' : In (c_framework c) (modules (cr_registry (occurs s e)))).
      { destruct e; [apply K5, Hm|apply K5, Hm| |apply K5, Hm]. cbn. apply Hkm. left. reflexivity. }
      assert (Hkm' : keeps_modules es [c_framework c]) by (destruct e; cbn in Hkm; tauto).
      assert (Go : forall t', nth_error (cr_calls (occurs s e)) i = Some (o, q, t') -> stands o q calls (c_made (cr_caches (occurs s e))) (cr_registry (occurs s e)) t' ->
        exists t', nth_error (cr_calls (history es (occurs s e))) i = Some (o, q, t') /\ stands o q calls (c_made (cr_caches (history es (occurs s e)))) (cr_registry (history es (occurs s e))) t').
      { intros t' N S. apply (IH (occurs s e) t' K1 Hk'); try assumption; [intros e' I; apply He; right; exact I|intros j I; apply Hj; right; exact I]. }
      assert (Same : loaded (cr_registry (occurs s e)) = loaded (cr_registry s) -> nth_error (cr_calls (occurs s e)) i = Some (o, q, t) ->
        exists t', nth_error (cr_calls (history es (occurs s e))) i = Some (o, q, t') /\ stands o q calls (c_made (cr_caches (history es (occurs s e)))) (cr_registry (history es (occurs s e))) t').
      { intros El N. apply (Go t N). destruct Ht as (T1 & T2 & T3). split; [exact (clean_later _ _ _ _ _ _ K2 T1)|]. split; [exact T2|]. destruct t; auto. exact (lone_same _ _ _ El T3). }
      destruct e as [o' q'|j|ms|b1 b2 b3 b4]; [| |apply Same; [reflexivity|exact Hi]|apply Same; [reflexivity|exact Hi]].
      - cbn [Crowd.occurs] in *. destruct (start U library lib_einsum o' q' (layer_made s)); [|apply Same; [reflexivity|exact Hi]]. apply Same; [reflexivity|]. cbn [cr_calls].
        rewrite nth_error_app1; [exact Hi|]. apply nth_error_Some. congruence.
      - rewrite (Hj j (or_introl eq_refl)) in *. cbn [Crowd.occurs] in *. rewrite Hi in *.
        destruct (proceed lim fw_of build t (cr_registry s) (cr_caches s)) as [[t' reg'] st'] eqn:Ep.
        apply (Go t').
        + cbn [cr_calls]. rewrite nth_update by (apply nth_error_Some; congruence). rewrite Nat.eqb_refl. reflexivity.
        + cbn [cr_caches cr_registry]. eapply (proceed_stands o q calls t (cr_registry s) (cr_caches s)); [apply Hs|apply Hs|exact Hk|exact Hm| |exact Ht|exact Ep].
          destruct t as [| |p go]; try exact I. eapply (asking_placed U fw_of library lib_einsum); eassumption.
    Qed.
  End Seek.

  Theorem uninterrupted es es' o q a L : decent_events (es ++ Enter o q :: es') ->
    let s := history es nobody in let s1 := occurs s (Enter o q) in let s' := history es' s1 in
    length (cr_calls s1) = S (length (cr_calls s)) -> (forall j, In (Move j) es' -> j = length (cr_calls s)) -> keeps_modules es' (modules (cr_registry s)) ->
    nth_error (cr_calls s') (length (cr_calls s)) = Some (o, q, Done a L) ->
    suitable (map fst (cr_calls s')) q -> (forall x, asks (map fst (cr_calls s')) q = Some x -> present fw_of (modules (cr_registry s)) x) ->
    a = right fw_of (map fst (cr_calls s')) o q.
  Proof.
    intros He s s1 s' Hst Hj Hkm E Hsu Hpr.
    destruct (asks (map fst (cr_calls s')) q) as [x|] eqn:Ea.
    2:{ apply (in_use lim U fw_of build library lib_einsum Hb Hlib es es' o q a L He Hst E Hsu). fold s s1 s'. intros x Ex. congruence. }
    specialize (Hpr x eq_refl). unfold present in Hpr. destruct (fw_of (o_type x)) as [f|] eqn:Ef.
    2:{ destruct (answers lim U fw_of build library lib_einsum Hb Hlib (es ++ Enter o q :: es') (length (cr_calls s)) o q a L He) as [R|R].
        - unfold Crowd.history. rewrite fold_left_app. exact E.
        - unfold Crowd.history. rewrite fold_left_app. exact Hsu.
        - unfold Crowd.history in R. rewrite fold_left_app in R. exact R.
        - unfold Crowd.history in R. rewrite fold_left_app in R. etransitivity; [exact R|]. exact (refused_right (map fst (cr_calls s')) o q x Ea Ef). }
    destruct Hpr as (c & O & En & Im).
    assert (Ha : accepts fw_of c x = true) by (unfold accepts; rewrite Ef, En; apply str_eqb_iff; reflexivity).
    assert (Hes : decent_events es) by (intros o' q' I; apply He, in_or_app; left; exact I).
    assert (He' : decent_events es') by (intros o' q' I; apply He, in_or_app; right; right; exact I).
    assert (Hoq : orders_ok o /\ decent q) by (apply He, in_or_app; right; left; reflexivity).
    destruct (entered lim U fw_of build library lib_einsum Hb Hlib es o q Hes Hst) as (t & Hi & Et & Er & Ec & Ecalls & Hsh). fold s s1 in Hi, Et, Er, Ec, Ecalls, Hsh.
    pose proof (history_fine lim U fw_of build library lib_einsum Hb Hlib es nobody (nobody_fine U fw_of library lib_einsum) (events_ok es Hes)) as Hs.
    change (Crowd.history lim U fw_of build library lib_einsum es nobody) with s in Hs.
    pose proof (proj1 (occurs_steps lim U fw_of build library lib_einsum Hb Hlib s (Enter o q) Hs Hoq)) as Hs1. change (Crowd.occurs lim U fw_of build library lib_einsum s (Enter o q)) with s1 in Hs1.
    assert (Hl : has_layer q (map fst (cr_calls s))).
    { destruct q as [| | | | | | | | | |k y]; try exact I. cbn in Et. destruct (layer_made s k) as [Lk|] eqn:El; [|discriminate].
      exact (proj1 (layer_made_held U fw_of library lib_einsum s k Lk Hs El)). }
    assert (Grow : exists more, map fst (cr_calls s') = map fst (cr_calls s) ++ more).
    { assert (G : forall es u, all_fine u -> (forall e, In e es -> event_ok e) -> exists more, map fst (cr_calls (history es u)) = map fst (cr_calls u) ++ more).
      { clear - Hb Hlib. induction es as [|e es IH]; intros u Hu He; [exists []; rewrite app_nil_r; reflexivity|]. change (history (e :: es) u) with (history es (occurs u e)).
        destruct (occurs_steps lim U fw_of build library lib_einsum Hb Hlib u e Hu (He e (or_introl eq_refl))) as (K1 & _ & _ & (m1 & K4) & _).
        destruct (IH (occurs u e) K1 (fun e' I => He e' (or_intror I))) as [m2 E2]. exists (m1 ++ m2). rewrite E2. unfold calls_of in K4. rewrite K4, app_assoc. reflexivity. }
      destruct (G es' s1 Hs1 (events_ok es' He')) as [m Em]. exists ([(o, q)] ++ m). fold s' in Em. rewrite Em, Ecalls, <- app_assoc. reflexivity. }
    destruct Grow as [more Grow]. rewrite Grow in *. rewrite (asks_app U library lib_einsum) in Ea by exact Hl. rewrite Ea in Hsh.
    destruct (stands_alone x c O Ha (length (cr_calls s)) o q (map fst (cr_calls s)) es' s1 t Hs1) as (t' & Ei & St).
    - apply occurs_keys, history_keys. constructor.
    - apply events_ok, He'.
    - rewrite Er. exact Im.
    - revert Hkm. clear - Im. induction es' as [|e es2 IH]; [auto|]. destruct e; cbn; auto. intros [H1 H2]. split; [|apply IH, H2]. intros y [<-|[]]. apply H1, Im.
    - exact Hj.
    - exact Hi.
    - apply (shape_stands x c O Ha _ _ _ _ _ _ 69); [|exact Hsh]. rewrite Ec. apply start_clean; [exact Hs|apply Hoq|apply Hoq|exact Et].
    - change (Crowd.history lim U fw_of build library lib_einsum es' s1) with s' in Ei. rewrite E in Ei. injection Ei as <-.
      destruct St as [F _]. cbn [clean] in F. apply (fair_app U fw_of library lib_einsum o q _ more wanted _ _ _ _ Hl) in F. destruct F as [F _].
      destruct (F Hsu) as [F'|(_ & y & Ey & Ny & _)]; [exact F'|]. exfalso. apply Ny. rewrite (asks_app U library lib_einsum) in Ey by exact Hl. rewrite Ea in Ey. injection Ey as <-. exists c. auto.
  Qed.
End Lone.
