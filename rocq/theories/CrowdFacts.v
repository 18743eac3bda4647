(** * Calls in several threads: the steps *)
From Verif Require Import Py Tensor Parsing Recipe Ops Backends Api ApiFacts6 Packing Einsum Registry SpecGrammar SpecRegistry RegistryFacts Cache CacheFacts
  Layers ListFacts ParseFacts SpecSpelling MixFacts9 SpellingFacts Session SpecSession SessionFacts Threads SpecThreads ThreadFacts CacheThreads CacheThreadFacts Crowd SpecCrowd.

Notation ours := (flat_map classes einops_backends).
Lemma frameworks_once c c' : In c ours -> In c' ours -> c_framework c = c_framework c' -> c = c'.
Proof.
  cbn [flat_map einops_backends backend_class classes map app]. intros H H' E.
  repeat (destruct H as [<-|H]; [repeat (destruct H' as [<-|H']; [solve [reflexivity|exfalso; vm_compute in E; discriminate E]|]); destruct H'|]). destruct H.
Qed.

(** ** the registry *)
Definition grew (reg reg' : registry) : Prop := forall fw, has_backend fw reg -> has_backend fw reg'.
Lemma grew_refl reg : grew reg reg. Proof. intros fw H. exact H. Qed.
Lemma grew_trans r1 r2 r3 : grew r1 r2 -> grew r2 r3 -> grew r1 r3. Proof. intros H1 H2 fw H. apply H2, H1, H. Qed.
Lemma grew_eq reg reg' : loaded reg' = loaded reg -> grew reg reg'.
Proof. intros E fw [b H]. exists b. rewrite E. exact H. Qed.

Section Registry.
  Context {A : Type} (fw_of : nat -> option framework) (build : nat -> bclass -> list pystr -> option exn * list pystr).
  Notation accepts := (accepts fw_of (A := A)).
  Notation advance := (advance o_type accepts build).
  Notation sound := (ThreadFacts.sound o_type accepts).
  Implicit Types (x : object A) (p : point (object A)) (reg : registry).

  Definition subject p : object A :=
    match p with
    | AtStart _ x | AtList _ x | Scanning _ x _ | Looking x _ | Checking x _ _ | Building x _ _ | Storing x _ _ | Testing x _ _ | Finished x _ => x
    end.
  Record reg_fine reg : Prop := {
    rf_loaded : forall fw b, In (fw, b) (loaded reg) -> fw = c_framework (snd b) /\ In (snd b) ours;
    rf_types : forall t b, In (t, b) (by_type reg) -> In (snd b) ours /\ sound t b /\ has_backend (c_framework (snd b)) reg }.
  Definition placed p reg : Prop :=
    match p with
    | AtStart roots _ | AtList roots _ => roots = einops_backends
    | Scanning roots _ items => roots = einops_backends /\ forall fw b, In (fw, b) items -> fw = c_framework (snd b) /\ In (snd b) ours /\ has_backend fw reg
    | Looking _ cs => incl cs ours
    | Checking _ c cs | Building _ c cs => incl (c :: cs) ours
    | Storing _ b cs => incl (snd b :: cs) ours
    | Testing _ b cs => incl (snd b :: cs) ours /\ has_backend (c_framework (snd b)) reg
    | Finished x (Ok b) => In (snd b) ours /\ sound (o_type x) b /\ has_backend (c_framework (snd b)) reg
    | Finished _ (Err _) => True
    end.
  Lemma placed_grew p reg reg' : grew reg reg' -> placed p reg -> placed p reg'.
  Proof.
    intros G. destruct p as [roots x|roots x|roots x items|x cs|x c cs|x c cs|x b cs|x b cs|x [b|e]]; cbn; auto.
    - intros [H1 H2]. split; [exact H1|]. intros fw b I. destruct (H2 fw b I) as (E & O & H). auto.
    - intros [H1 H2]. auto.
    - intros (H1 & H2 & H3). auto.
  Qed.
  Lemma advance_subject p reg : subject (fst (advance p reg)) = subject p.
  Proof.
    destruct p as [roots x|roots x|roots x [|[fw b] items]|x [|c cs]|x c cs|x c cs|x b cs|x b cs|x r]; cbn [Threads.advance]; try reflexivity.
    - destruct (find_key _ _ _); reflexivity.
    - destruct (Session.accepts _ _ _); reflexivity.
    - destruct (find_key _ _ _); reflexivity.
    - destruct (str_mem _ _); reflexivity.
    - destruct (construct build c reg) as [reg' [b|e]]; reflexivity.
    - destruct (Session.accepts _ _ _); reflexivity.
  Qed.
  Lemma store_loaded_grew b reg : grew reg (store_loaded b reg).
  Proof.
    intros fw [b0 I]. destruct (put_key_keeps str_eqb (c_framework (snd b)) b _ fw b0 str_eqb_iff I) as [J|[-> J]]; eexists; exact J.
  Qed.
  Lemma store_type_fine x b reg : reg_fine reg -> Session.accepts fw_of (snd b) x = true -> In (snd b) ours -> has_backend (c_framework (snd b)) reg ->
    reg_fine (store_type o_type x b reg).
  Proof.
    intros [H1 H2] Ha Ho Hh. split; [exact H1|]. cbn. intros t b' I. apply put_key_in in I as [I|[-> E]]; [exact (H2 t b' I)|].
    assert (E' : t = o_type x) by (destruct E as [E|E]; [exact E|apply Nat.eqb_eq in E; auto]). subst t.
    split; [exact Ho|]. split; [exists x; auto|exact Hh].
  Qed.
  Lemma all_ours : incl (all_subclasses einops_backends) ours.
  Proof. intros c. apply Permutation_in, all_subclasses_perm. Qed.
  Lemma advance_placed p reg : reg_fine reg -> placed p reg ->
    placed (fst (advance p reg)) (snd (advance p reg)) /\ reg_fine (snd (advance p reg)) /\ grew reg (snd (advance p reg)).
  Proof.
    intros Hr Hp. pose proof Hr as [H1 H2]. destruct p as [roots x|roots x|roots x [|[fw b] items]|x [|c cs]|x c cs|x c cs|x b cs|x b cs|x r]; cbn [Threads.advance].
    - destruct (find_key _ _ _) as [b|] eqn:E; cbn; [|auto using grew_refl]. split; [|split; [exact Hr|apply grew_refl]].
      destruct (H2 _ _ (find_key_in _ _ _ E)) as (O & S & H). auto.
    - cbn. split; [|split; [exact Hr|apply grew_refl]]. split; [exact Hp|]. intros fw b I. destruct (H1 _ _ I) as [E O]. split; [exact E|]. split; [exact O|]. exists b. exact I.
    - cbn in *. destruct Hp as [-> _]. split; [exact all_ours|]. split; [exact Hr|apply grew_refl].
    - cbn [placed] in Hp. destruct Hp as [E Hp]. destruct (Hp fw b (or_introl eq_refl)) as (-> & O & Hh).
      destruct (Session.accepts _ _ _) eqn:Ea; cbn [fst snd placed].
      + split; [split; [exact O|split; [exists x; auto|exact Hh]]|]. split; [apply store_type_fine; assumption|apply grew_eq; reflexivity].
      + split; [|split; [exact Hr|apply grew_refl]]. split; [exact E|]. intros fw' b' I. apply Hp. right. exact I.
    - cbn. split; [exact I|]. split; [exact Hr|apply grew_refl].
    - destruct (find_key _ _ _); cbn; (split; [|split; [exact Hr|apply grew_refl]]); [intros c' I; apply Hp; right; exact I|exact Hp].
    - destruct (str_mem _ _); cbn; (split; [|split; [exact Hr|apply grew_refl]]); [exact Hp|intros c' I; apply Hp; right; exact I].
    - unfold construct. destruct (build (clock reg) c (modules reg)) as [[e|] ms]; cbn.
      + split; [exact I|]. split; [split; [exact H1|exact H2]|apply grew_eq; reflexivity].
      + split; [exact Hp|]. split; [split; [exact H1|exact H2]|apply grew_eq; reflexivity].
    - cbn [fst snd placed] in *. pose proof (store_loaded_grew b reg) as G. split; [|split; [|exact G]].
      + split; [exact Hp|]. exists b. apply put_key_has, str_eqb_iff.
      + split; cbn.
        * intros fw b' I. apply put_key_in in I as [I|[-> E]]; [exact (H1 fw b' I)|]. split; [|apply Hp; left; reflexivity].
          destruct E as [E|E]; [exact E|]. apply str_eqb_iff in E. auto.
        * intros t b' I. destruct (H2 t b' I) as (O & S & H). split; [exact O|]. split; [exact S|apply G, H].
    - cbn [placed] in Hp. destruct Hp as [Hi Hh]. destruct (Session.accepts _ _ _) eqn:Ea; cbn [fst snd placed].
      + split; [split; [apply Hi; left; reflexivity|split; [exists x; auto|exact Hh]]|]. split; [|apply grew_eq; reflexivity].
        apply store_type_fine; [exact Hr|exact Ea|apply Hi; left; reflexivity|exact Hh].
      + split; [|split; [exact Hr|apply grew_refl]]. intros c' I. apply Hi. right. exact I.
    - split; [exact Hp|]. split; [exact Hr|apply grew_refl].
  Qed.

  (** a class that accepts [x] has a backend in use *)
  Definition served x reg : Prop := exists c, In c ours /\ accepts c x = true /\ has_backend (c_framework c) reg.
  Lemma served_grew x reg reg' : grew reg reg' -> served x reg -> served x reg'.
  Proof. intros G (c & H1 & H2 & H3). exists c. auto. Qed.
  Lemma settled_served x reg : reg_fine reg -> settled fw_of x reg -> served x reg.
  Proof.
    intros [H1 H2] [((fw & b) & I & Ha)|I].
    - destruct (H1 fw b I) as [-> O]. exists (snd b). split; [exact O|]. split; [exact Ha|]. exists b. exact I.
    - apply in_map_iff in I as ([t b] & E & I). cbn in E. subst t. destruct (H2 _ _ I) as (O & (y & Ey & Ha) & Hh).
      exists (snd b). split; [exact O|]. split; [|exact Hh]. rewrite <- (accepts_type fw_of (snd b) y x Ey). exact Ha.
  Qed.
  Lemma served_accepted x reg : reg_fine reg -> served x reg -> accepted accepts x reg.
  Proof.
    intros [H1 H2] (c & O & Ha & b & I). destruct (H1 _ _ I) as [E O']. exists (c_framework c), b. split; [exact I|]. split; [exact E|].
    rewrite <- (frameworks_once c (snd b) O O' E). exact Ha.
  Qed.
  Lemma on_course_grew ms0 cs0 x p reg reg' : grew reg reg' -> on_course ms0 cs0 x p reg -> on_course ms0 cs0 x p reg'.
  Proof.
    clear fw_of build. intros G. assert (C : forall cs, covered ms0 reg cs -> covered ms0 reg' cs) by (intros cs H c I J; apply G, H; assumption).
    destruct p as [| | | | | | | |y [b|e]]; cbn; try tauto.
    all: try (intros [-> [done [H1 H2]]]; split; [reflexivity|]; exists done; split; [exact H1|apply C, H2]).
    intros (-> & -> & H). auto.
  Qed.

  (** what is known of a call that asks: the modules at its start, the tensors whose
      backend is in use at its start *)
  Record ghost := { g_ms : list pystr; g_use : object A -> Prop }.
  Definition no_ghost : ghost := {| g_ms := []; g_use := fun _ => False |}.
  Definition asking (g : ghost) p reg : Prop :=
    placed p reg /\ (g_use g (subject p) -> served (subject p) reg /\ fine accepts (subject p) p) /\ on_course (g_ms g) ours (subject p) p reg.
  Definition all_in_use (g : ghost) reg : Prop := covered (g_ms g) reg ours.
  Definition replied (g : ghost) x (r : result framework) reg : Prop :=
    r = known fw_of x Ok \/ (r = Err RuntimeError /\ ~ g_use g x /\ all_in_use g reg).
  Lemma all_in_use_grew g reg reg' : grew reg reg' -> all_in_use g reg -> all_in_use g reg'.
  Proof. intros G H c I J. apply G, H; assumption. Qed.
  Lemma asking_grew g p reg reg' : grew reg reg' -> asking g p reg -> asking g p reg'.
  Proof.
    intros G (H1 & H2 & H3). split; [exact (placed_grew _ _ _ G H1)|]. split; [|exact (on_course_grew _ _ _ _ _ _ G H3)].
    intros H. destruct (H2 H) as [H4 H5]. split; [exact (served_grew _ _ _ G H4)|exact H5].
  Qed.
  Lemma asking_start g x reg : (g_use g x -> served x reg) -> asking g (AtStart einops_backends x) reg.
  Proof.
    intros H. split; [reflexivity|]. split; [intros Hu; split; [exact (H Hu)|reflexivity]|]. split; [reflexivity|].
    intros c. split; apply Permutation_in; [apply all_subclasses_perm|apply Permutation_sym, all_subclasses_perm].
  Qed.
  Lemma asking_advance (Hb : honest build) g p reg : reg_fine reg -> incl (g_ms g) (modules reg) -> asking g p reg ->
    asking g (fst (advance p reg)) (snd (advance p reg)) /\ reg_fine (snd (advance p reg)) /\ grew reg (snd (advance p reg)).
  Proof.
    intros Hr Hm (H1 & H2 & H3). destruct (advance_placed p reg Hr H1) as (K1 & K2 & K3). split; [|split; assumption].
    unfold asking. rewrite advance_subject. split; [exact K1|]. split; [|apply advance_on_course; assumption].
    intros Hu. destruct (H2 Hu) as [H4 H5]. split; [exact (served_grew _ _ _ K3 H4)|].
    apply advance_fine; [apply served_accepted; assumption|exact H5].
  Qed.
  Lemma asking_end g x r reg : asking g (Finished x r) reg -> replied g x (found r) reg.
  Proof.
    intros (H1 & H2 & H3). unfold found. destruct r as [b|e]; cbn [placed on_course subject fine bind] in *.
    - destruct H1 as (O & (y & Ey & Ha) & _). left. unfold Session.accepts in Ha. unfold known. rewrite Ey in Ha. destruct (fw_of (o_type x)) as [f|]; [|discriminate].
      apply str_eqb_iff in Ha. rewrite (framework_found (snd b) f O Ha). reflexivity.
    - destruct H3 as (_ & -> & H3). right. split; [reflexivity|]. split; [|exact H3]. intros Hu. destruct (H2 Hu) as [_ [_ [b E]]]. discriminate.
  Qed.
  Lemma replied_grew g x r reg reg' : grew reg reg' -> replied g x r reg -> replied g x r reg'.
  Proof. intros G [H|(H1 & H2 & H3)]; [left; exact H|right]. split; [exact H1|]. split; [exact H2|exact (all_in_use_grew _ _ _ G H3)]. Qed.
End Registry.

(** ** the caches *)
Section Caches.
  Context (lim : limits) (U : unicode).
  Notation sound := (CacheFacts.sound int_ops U).
  Definition may {X} (a : access X) (made : list recipe) : Prop :=
    match a with
    | KeepRecipe k rec => recipe_for U k rec
    | KeepCooked (id, shape, sizes) v => exists rec, nth_error made id = Some rec /\ reconstruct int_ops rec shape sizes = Ok v
    | KeepAnalyzed k v => analyze_pattern U (fst k) = Ok v
    | KeepCompact k v => compactify U k = Ok v
    | _ => True
    end.
  Definition gives {X} (a : access X) (made : list recipe) : X -> Prop :=
    match a in access X return X -> Prop with
    | LookRecipe k => fun v => match v with None => True | Some (id, rec) => nth_error made id = Some rec /\ recipe_for U k rec end
    | KeepRecipe _ rec => fun id => nth_error made id = Some rec
    | LookCooked (id, shape, sizes) => fun v => match v with None => True | Some k => exists rec, nth_error made id = Some rec /\ reconstruct int_ops rec shape sizes = Ok k end
    | LookAnalyzed k => fun v => match v with None => True | Some w => analyze_pattern U (fst k) = Ok w end
    | LookCompact k => fun v => match v with None => True | Some w => compactify U k = Ok w end
    | _ => fun _ => True
    end.
  Lemma may_extends {X} (a : access X) made made' : extends made made' -> may a made -> may a made'.
  Proof. intros E. destruct a as [| | |[[id sh] sz] v| | | |]; cbn; auto. intros (rec & H1 & H2). exists rec. auto. Qed.
  Lemma perform_good {X} (a : access X) st : sound st -> may a (c_made st) ->
    sound (snd (perform lim a st)) /\ extends (c_made st) (c_made (snd (perform lim a st))) /\ gives a (c_made (snd (perform lim a st))) (fst (perform lim a st)).
  Proof.
    intros [S1 S2 S3 S4] G. destruct a as [k|k rec|[[id sh] sz]|[[id sh] sz] k|k|k w|k|k w]; cbn [perform].
    - destruct (look rkey_eqb k (c_recipes st)) as [v c] eqn:E. apply look_spec in E as [Hi Hf]. cbn [fst snd]. split; [split; cbn; auto|]. split; [apply extends_refl|].
      cbn. destruct Hf as [->|(k' & [id rec] & I & Q & ->)]; [auto|].
      destruct k' as [[[q op] ns] n]. destruct (S1 _ _ _ _ _ _ I) as [H1 H2]. split; [exact H1|]. eapply recipe_for_eqb; [exact Q|exact H2].
    - cbn [fst snd]. cbn in G. pose proof (extends_app (c_made st) [rec]) as X.
      assert (N : nth_error (c_made st ++ [rec]) (length (c_made st)) = Some rec) by (rewrite nth_error_app2, Nat.sub_diag by lia; reflexivity).
      split; [|split; [exact X|exact N]]. split; cbn; auto.
      + intros q op ns n i rc I. apply put_spec in I as [I|I].
        * destruct (S1 _ _ _ _ _ _ I) as [H1 H2]. split; [apply X, H1|exact H2].
        * injection I as <- -> ->. split; [exact N|exact G].
      + intros i s z kk I. destruct (S2 _ _ _ _ I) as (rc & H1 & H2). exists rc. split; [apply X, H1|exact H2].
    - destruct (look (ckey_eqb Z.eqb) (id, sh, sz) (c_cooked st)) as [v c] eqn:E. apply look_spec in E as [Hi Hf]. cbn [fst snd]. split; [split; cbn; auto|]. split; [apply extends_refl|].
      cbn. destruct Hf as [->|([[i' sh'] sz'] & k & I & Q & ->)]; [auto|]. apply (ckey_eqb_eq Z.eqb zeq) in Q as (-> & -> & ->). apply S2, I.
    - cbn [fst snd]. cbn in G. split; [|split; [apply extends_refl|exact I]]. split; cbn; auto.
      intros i s z kk J. apply put_spec in J as [J|J]; [apply S2, J|]. injection J as <- <- <- <-. exact G.
    - destruct (look akey_eqb k (c_analyzed st)) as [v c] eqn:E. apply look_spec in E as [Hi Hf]. cbn [fst snd]. split; [split; cbn; auto; intros q op w I; apply (S3 _ op), Hi, I|]. split; [apply extends_refl|].
      cbn. destruct Hf as [->|([q op] & w & I & Q & ->)]; [auto|]. unfold akey_eqb in Q. apply andb_true_iff in Q as [Q _]. apply str_eqb_eq in Q. rewrite Q. eapply S3, I.
    - cbn [fst snd]. cbn in G. split; [|split; [apply extends_refl|exact I]]. split; cbn; auto.
      intros q op x J. apply put_spec in J as [J|J]; [eapply S3, J|]. injection J as <- <-. exact G.
    - destruct (look str_eqb k (c_compact st)) as [v c] eqn:E. apply look_spec in E as [Hi Hf]. cbn [fst snd]. split; [split; cbn; auto|]. split; [apply extends_refl|].
      cbn. destruct Hf as [->|(q & w & I & Q & ->)]; [auto|]. apply str_eqb_eq in Q. rewrite Q. eapply S4, I.
    - cbn [fst snd]. cbn in G. split; [|split; [apply extends_refl|exact I]]. split; cbn; auto.
      intros q x J. apply put_spec in J as [J|J]; [eapply S4, J|]. injection J as <- <-. exact G.
  Qed.
End Caches.

(** ** tasks *)
Section Tasks.
  Context {A : Type} (lim : limits) (U : unicode) (fw_of : nat -> option framework) (build : nat -> bclass -> list pystr -> option exn * list pystr).
  Context (Hb : honest build) (g : ghost (A := A)).
  Notation sound := (CacheFacts.sound int_ops U).
  (** what has to hold of the answer and the layer *)
  Context (P : list recipe -> registry -> answer A -> option (stored_layer A) -> Prop).
  Context (P_later : forall made made' reg reg' a L, extends made made' -> grew reg reg' -> P made reg a L -> P made' reg' a L).
  Fixpoint good (made : list recipe) (reg : registry) (t : task A) : Prop :=
    match t with
    | Done a L => P made reg a L
    | Access a go => may U a made /\ forall made' reg' v, extends made made' -> grew reg reg' -> gives U a made' v -> good made' reg' (go v)
    | Ask p go => asking fw_of g p reg /\ forall made' reg' r, extends made made' -> grew reg reg' -> replied fw_of g (subject p) r reg' -> good made' reg' (go r)
    end.
  Lemma good_later t : forall made made' reg reg', extends made made' -> grew reg reg' -> good made reg t -> good made' reg' t.
  Proof.
    destruct t as [a L|X a go|p go]; cbn; intros made made' reg reg' E G H.
    - eapply P_later; eauto.
    - destruct H as [H1 H2]. split; [exact (may_extends U a _ _ E H1)|]. intros m r v E' G'. apply H2; [exact (extends_trans _ _ _ E E')|exact (grew_trans _ _ _ G G')].
    - destruct H as [H1 H2]. split; [eapply asking_grew; eassumption|]. intros m r v E' G'. apply H2; [exact (extends_trans _ _ _ E E')|exact (grew_trans _ _ _ G G')].
  Qed.
  Lemma proceed_good t reg st : sound st -> reg_fine fw_of (A := A) reg -> incl (g_ms g) (modules reg) -> good (c_made st) reg t ->
    forall t' reg' st', proceed lim fw_of build t reg st = (t', reg', st') ->
    sound st' /\ reg_fine fw_of (A := A) reg' /\ extends (c_made st) (c_made st') /\ grew reg reg' /\ incl (modules reg) (modules reg') /\ good (c_made st') reg' t'.
  Proof.
    intros Hs Hr Hm H t' reg' st' E. destruct t as [a L|X a go|p go]; cbn [Crowd.proceed] in E.
    - injection E as <- <- <-. auto 8 using extends_refl, grew_refl, incl_refl.
    - cbn in H. destruct H as [H1 H2]. destruct (perform_good lim U a st Hs H1) as (K1 & K2 & K3). destruct (perform lim a st) as [v c]. injection E as <- <- <-. cbn [fst snd] in *.
      split; [exact K1|]. split; [exact Hr|]. split; [exact K2|]. split; [apply grew_refl|]. split; [apply incl_refl|]. apply H2; [exact K2|apply grew_refl|exact K3].
    - cbn in H. destruct H as [H1 H2].
      assert (Fin : forall x r, p = Finished x r -> t' = go (found r) -> reg' = reg -> st' = st ->
        sound st' /\ reg_fine fw_of (A := A) reg' /\ extends (c_made st) (c_made st') /\ grew reg reg' /\ incl (modules reg) (modules reg') /\ good (c_made st') reg' t').
      { intros x r -> -> -> ->. split; [exact Hs|]. split; [exact Hr|]. split; [apply extends_refl|]. split; [apply grew_refl|]. split; [apply incl_refl|].
        apply H2; [apply extends_refl|apply grew_refl|]. apply asking_end, H1. }
      assert (Adv : (let '(p', reg2) := advance o_type (accepts fw_of) build p reg in (Ask p' go, reg2, st)) = (t', reg', st') ->
        sound st' /\ reg_fine fw_of (A := A) reg' /\ extends (c_made st) (c_made st') /\ grew reg reg' /\ incl (modules reg) (modules reg') /\ good (c_made st') reg' t').
      { intros E'. destruct (asking_advance fw_of build Hb g p reg Hr Hm H1) as (K1 & K2 & K3). pose proof (advance_modules o_type (accepts fw_of) build Hb p reg) as K4.
        pose proof (advance_subject fw_of build p reg) as K5. destruct (advance o_type (accepts fw_of) build p reg) as [p' reg2]. injection E' as <- <- <-. cbn [fst snd] in *.
        split; [exact Hs|]. split; [exact K2|]. split; [apply extends_refl|]. split; [exact K3|]. split; [exact K4|]. cbn. split; [exact K1|].
        intros m r v E' G' R. rewrite K5 in R. apply H2; [exact E'|exact (grew_trans _ _ _ K3 G')|exact R]. }
      destruct p; try exact (Adv E). injection E as <- <- <-. eapply Fin; reflexivity.
  Qed.

  (** the pieces of calls *)
  Lemma ask_good {V} made reg x (wrap : result V -> answer A) go : (g_use g x -> served fw_of x reg) ->
    (forall made' reg' f, extends made made' -> grew reg reg' -> fw_of (o_type x) = Some f -> good made' reg' (go f)) ->
    (forall made' reg', extends made made' -> grew reg reg' -> fw_of (o_type x) = None \/ (~ g_use g x /\ all_in_use g reg') -> P made' reg' (wrap (Err RuntimeError)) None) ->
    good made reg (ask x wrap go).
  Proof.
    intros Hu H1 H2. unfold ask. cbn [good subject]. split; [apply asking_start, Hu|]. intros made' reg' r E G [->|(-> & R1 & R2)].
    - unfold known. destruct (fw_of (o_type x)) as [f|] eqn:Ef; [auto|]. cbn. auto.
    - cbn. auto.
  Qed.
  Lemma analyzed_good made reg pattern op go :
    (forall made' reg', extends made made' -> grew reg reg' -> good made' reg' (go (analyze_pattern U pattern))) -> good made reg (analyzed U pattern op go).
  Proof.
    intros H. unfold analyzed, memo. cbn [good]. split; [exact I|]. intros made' reg' [v|] E G F.
    - cbn in F. rewrite F in H. auto.
    - destruct (analyze_pattern U pattern) as [v|e] eqn:Ea; [|auto]. cbn [good]. split; [exact Ea|]. intros m r _ E' G' _.
      apply H; [exact (extends_trans _ _ _ E E')|exact (grew_trans _ _ _ G G')].
  Qed.
  Lemma compacted_good made reg pattern go :
    (forall made' reg', extends made made' -> grew reg reg' -> good made' reg' (go (compactify U pattern))) -> good made reg (compacted U pattern go).
  Proof.
    intros H. unfold compacted, memo. cbn [good]. split; [exact I|]. intros made' reg' [v|] E G F.
    - cbn in F. rewrite F in H. auto.
    - destruct (compactify U pattern) as [v|e] eqn:Ea; [|auto]. cbn [good]. split; [exact Ea|]. intros m r _ E' G' _.
      apply H; [exact (extends_trans _ _ _ E E')|exact (grew_trans _ _ _ G G')].
  Qed.
  Lemma cooking_good made reg id rec shape sizes go : nth_error made id = Some rec ->
    (forall made' reg', extends made made' -> grew reg reg' -> good made' reg' (go (reconstruct int_ops rec shape sizes))) -> good made reg (cooking (id, rec) shape sizes go).
  Proof.
    intros N H. unfold cooking, memo. cbn [good fst snd]. split; [exact I|]. intros made' reg' [v|] E G F.
    - cbn in F. destruct F as (rec' & F1 & F2). apply E in N. assert (rec' = rec) by congruence. subst. rewrite F2 in H. auto.
    - destruct (reconstruct int_ops rec shape sizes) as [v|e] eqn:Ea; [|auto]. cbn [good]. split; [exists rec; split; [apply E, N|exact Ea]|]. intros m r _ E' G' _.
      apply H; [exact (extends_trans _ _ _ E E')|exact (grew_trans _ _ _ G G')].
  Qed.
  Lemma prepared_good o made reg k go : orders_ok o ->
    (forall made' reg' rr, extends made made' -> grew reg reg' -> match rr with Ok (id, rec) => nth_error made' id = Some rec | Err _ => True end ->
       (exists o, orders_ok o /\ (let* ir := rr in Ok (snd ir)) = let '(q, op, ns, n) := k in prepare_recipe U o q (op_of_key op) ns n) ->
       good made' reg' (go rr)) ->
    good made reg (prepared U o k go).
  Proof.
    intros Ho H. destruct k as [[[q op] ns] n]. unfold prepared. cbn [good]. split; [exact I|]. intros made' reg' [[id rec]|] E G F.
    - cbn in F. destruct F as [F1 (o' & Ho' & F2)]. apply H; [exact E|exact G|exact F1|]. exists o'. split; [exact Ho'|]. cbn. auto.
    - destruct (prepare_recipe U o q (op_of_key op) ns n) as [rec|e] eqn:Ea.
      + cbn [good may]. split; [exists o; split; [exact Ho|exact Ea]|]. intros m r id E' G' N. apply H; [exact (extends_trans _ _ _ E E')|exact (grew_trans _ _ _ G G')|exact N|].
        exists o. split; [exact Ho|]. cbn. auto.
      + apply H; [exact E|exact G|exact I|]. exists o. split; [exact Ho|]. cbn. auto.
  Qed.
  Lemma of_rest_good v p : forall made reg, CacheThreadFacts.good U v made p ->
    (forall made' reg', extends made made' -> grew reg reg' -> P made' reg' (GotOutcome v) None) -> good made reg (of_rest p).
  Proof.
    induction p as [w|k go IH|k rec go IH|[[id sh] sz] go IH|[[id sh] sz] k go IH|k go IH|k w go IH|k go IH|k w go IH]; intros made reg H HP; cbn [of_rest good CacheThreadFacts.good finish] in *.
    1:{ subst w. apply HP; [apply extends_refl|apply grew_refl]. }
    all: assert (HP' : forall m r, extends made m -> grew reg r -> forall m' r', extends m m' -> grew r r' -> P m' r' (GotOutcome v) None)
      by (intros m r E G m' r' E' G'; apply HP; [exact (extends_trans _ _ _ E E')|exact (grew_trans _ _ _ G G')]).
    - split; [exact I|]. intros m r x E G F. apply IH; [apply H; assumption|apply HP'; assumption].
    - destruct H as [H1 H2]. split; [exact H1|]. intros m r x E G F. apply IH; [apply H2; assumption|apply HP'; assumption].
    - split; [exact I|]. intros m r x E G F. apply IH; [apply H; assumption|apply HP'; assumption].
    - destruct H as [H1 H2]. split; [exact H1|]. intros m r x E G F. apply IH; [apply H2; assumption|apply HP'; assumption].
    - split; [exact I|]. intros m r x E G F. apply IH; [apply H; assumption|apply HP'; assumption].
    - destruct H as [H1 H2]. split; [exact H1|]. intros m r x E G F. apply IH; [apply H2; assumption|apply HP'; assumption].
    - split; [exact I|]. intros m r x E G F. apply IH; [apply H; assumption|apply HP'; assumption].
    - destruct H as [H1 H2]. split; [exact H1|]. intros m r x E G F. apply IH; [apply H2; assumption|apply HP'; assumption].
  Qed.

  (** the recipes of a layer *)
  Definition held (made : list recipe) (e : nat * (nat * recipe)) : Prop := nth_error made (fst (snd e)) = Some (snd (snd e)).
  Lemma held_extends made made' es : extends made made' -> Forall (held made) es -> Forall (held made') es.
  Proof. intros E H. eapply Forall_impl; [|exact H]. intros e. apply E. Qed.
  Lemma prepared_dims_good o pattern op names dims : orders_ok o -> NoDup dims -> forall made reg go,
    (forall made' reg' r, extends made made' -> grew reg reg' -> (forall recs, r = Ok recs -> Forall (held made') recs) ->
       (exists os, (forall n, orders_ok (os n)) /\ (let* recs := r in Ok (map strip recs)) = mapM (prep_at U os pattern (op_of_key op) names) dims) -> good made' reg' (go r)) ->
    good made reg (prepared_dims U o pattern op names dims go).
  Proof.
    intros Ho. induction dims as [|n dims IH]; intros Hn made reg go H; cbn [prepared_dims].
    - apply H; [apply extends_refl|apply grew_refl|intros recs E; injection E as <-; constructor|]. exists (fun _ => o). split; [auto|reflexivity].
    - inversion Hn as [|? ? Hn1 Hn2]; subst. apply prepared_good; [exact Ho|]. intros made' reg' rr E G N (o' & Ho' & E1). destruct rr as [[i rec]|e].
      + apply (IH Hn2). intros m r recs E' G' F (os & Hos & Em).
        apply H; [exact (extends_trans _ _ _ E E')|exact (grew_trans _ _ _ G G')| |].
        * intros l El. destruct recs as [recs|e]; [|discriminate]. cbn in El. injection El as <-. constructor; [exact (E' _ _ N)|apply F; reflexivity].
        * exists (fun k => if k =? n then o' else os k). split; [intros k; destruct (k =? n); auto|].
          cbn [mapM]. unfold prep_at at 1. rewrite Nat.eqb_refl, <- E1. cbn [bind snd].
          assert (Em' : mapM (prep_at U (fun k => if k =? n then o' else os k) pattern (op_of_key op) names) dims = mapM (prep_at U os pattern (op_of_key op) names) dims).
          { apply mapM_ext_in. intros k Hk. unfold prep_at. destruct (Nat.eqb_spec k n); [subst; contradiction|reflexivity]. }
          rewrite Em', <- Em. destruct recs as [recs|e]; reflexivity.
      + apply H; [exact E|exact G|discriminate|]. exists (fun _ => o'). split; [auto|]. cbn [mapM]. unfold prep_at at 1. rewrite <- E1. reflexivity.
  Qed.
  Lemma prepared_all_dims_good o pattern op names : orders_ok o -> forall made reg go,
    (forall made' reg' r, extends made made' -> grew reg reg' -> (forall recs, r = Ok recs -> Forall (held made') recs) ->
       (exists os, (forall n, orders_ok (os n)) /\ (let* recs := r in Ok (map strip recs)) = prepare_all_dims U os pattern (op_of_key op) names) -> good made' reg' (go r)) ->
    good made reg (prepared_all_dims U o pattern op names go).
  Proof.
    intros Ho made reg go H. unfold prepared_all_dims. unfold prepare_all_dims in H.
    destruct (str_split s_arrow pattern) as [|l [|rr [|? ?]]]; try (apply H; [apply extends_refl|apply grew_refl|discriminate|exists (fun _ => o); auto]).
    destruct (parse_expression U false false 0 l) as [[lft k]|e]; [|apply H; [apply extends_refl|apply grew_refl|discriminate|exists (fun _ => o); auto]].
    cbn [bind] in H. apply (prepared_dims_good o pattern op names (dims_of_left lft) Ho (dims_NoDup lft)). exact H.
  Qed.
End Tasks.
