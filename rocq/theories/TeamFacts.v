(** * Programs in several threads: proofs *)
From Verif Require Import Py Tensor Parsing Recipe Ops Backends Api ApiFacts6 Packing Einsum Registry SpecGrammar SpecRegistry RegistryFacts Cache CacheFacts
  Layers ListFacts ParseFacts Session SpecSession SessionFacts Threads SpecThreads ThreadFacts CacheThreads CacheThreadFacts Crowd SpecCrowd CrowdFacts CrowdFacts2 CrowdFacts3 CrowdFacts4
  Team SpecTeam.

(** ** A call that answers with a layer has made one *)
Section Kept.
  Context {A : Type} (lim : limits) (U : unicode) (fw_of : nat -> option framework) (build : nat -> bclass -> list pystr -> option exn * list pystr).
  Context (library : framework -> runtime A) (lib_einsum : framework -> pystr -> list (tensor A) -> result (tensor A)).
  Fixpoint kept (t : task A) : Prop :=
    match t with
    | Done a L => a = GotLayer (Ok tt) -> L <> None
    | Access a go => forall v, kept (go v)
    | Ask p go => forall r, kept (go r)
    end.
  Lemma kept_finish (a : answer A) : a <> GotLayer (Ok tt) -> kept (finish a).
  Proof. intros H E. contradiction. Qed.
  Lemma kept_ask {V} x (wrap : result V -> answer A) go : (forall v, wrap v <> GotLayer (Ok tt)) -> (forall f, kept (go f)) -> kept (ask x wrap go).
  Proof. intros H1 H2. cbn. intros [f|e]; [apply H2|apply kept_finish, H1]. Qed.
  Lemma kept_memo {V} (lk : access (option V)) v keep go : (forall r, kept (go r)) -> kept (memo lk v keep go).
  Proof. intros H. cbn. intros [w|]; [apply H|]. destruct v as [w|e]; [|apply H]. cbn. intros _. apply H. Qed.
  Lemma kept_dims o pattern op names dims : forall go, (forall r, kept (go r)) -> kept (prepared_dims U o pattern op names dims go).
  Proof.
    induction dims as [|d dims IH]; intros go H; cbn [prepared_dims]; [apply H|]. cbn. intros [w|].
    - apply IH. intros r. apply H.
    - destruct (prepare_recipe _ _ _ _ _ _) as [rec|e]; [|apply H]. cbn. intros v. apply IH. intros r. apply H.
  Qed.
  Lemma kept_rest p : kept (of_rest p).
  Proof. induction p; cbn; auto; discriminate. Qed.
  Lemma kept_make o torch reserved p red id sizes : kept (start_make U o torch reserved p red id sizes).
  Proof.
    unfold start_make. destruct (check_kwargs _ sizes); [|discriminate]. destruct (opkey_of red id) as [op|]; [|discriminate]. unfold prepared_all_dims.
    destruct (str_split s_arrow p) as [|l [|rr [|? ?]]]; try discriminate. destruct (parse_expression U false false 0 l) as [[lft k]|e]; [|discriminate].
    apply kept_dims. intros [recs|e]; cbn; discriminate.
  Qed.
  Lemma start_kept o q pick t : start U library lib_einsum o q pick = Some t -> kept t.
  Proof.
    intros E. destruct q as [x p red id sizes|x p|x|x|args|ts p|x ps p|f c|torch p sizes|torch p red id sizes|k x]; cbn [start] in E; try (injection E as <-).
    - destruct (check_kwargs reserved_kwargs sizes); [|discriminate]. destruct (first_of x) as [y|]; [|discriminate]. apply kept_ask; [discriminate|]. intros f. apply kept_rest.
    - destruct (parse_expression U true false 0 p); [|discriminate]. apply kept_ask; discriminate.
    - apply kept_ask; discriminate.
    - apply kept_ask; discriminate.
    - unfold start_einsum. destruct (length args <=? 1); [discriminate|]. destruct (last args (inr [])); [discriminate|]. apply kept_memo. intros [c|e]; [|discriminate].
      destruct (removelast args) as [|[x|s'] l]; try discriminate. apply kept_ask; discriminate.
    - apply kept_memo. intros [c|e]; [|discriminate]. destruct ts as [|x ts]; [discriminate|]. apply kept_ask; discriminate.
    - apply kept_memo. intros [c|e]; [|discriminate]. apply kept_ask; discriminate.
    - apply kept_rest.
    - apply kept_make.
    - apply kept_make.
    - destruct (pick k) as [s|]; [|discriminate]. injection E as <-. unfold start_use. destruct (sl_torch s); [discriminate|]. apply kept_ask; [discriminate|]. intros f.
      destruct (of_option KeyError _); [|discriminate]. apply kept_memo. discriminate.
  Qed.
  Definition all_kept (s : crowd A) : Prop := forall oq t, In (oq, t) (cr_calls s) -> kept t.
  Lemma occurs_kept s e : all_kept s -> all_kept (occurs lim U fw_of build library lib_einsum s e).
  Proof.
    intros H. destruct e as [o q|i|ms|b1 b2 b3 b4]; cbn [Crowd.occurs]; [| |exact H|exact H].
    - destruct (start U library lib_einsum o q (layer_made s)) as [t|] eqn:E; [|exact H]. intros oq t' I. cbn in I. apply in_app_or in I as [I|[I|[]]]; [exact (H oq t' I)|].
      injection I as _ <-. exact (start_kept _ _ _ _ E).
    - destruct (nth_error (cr_calls s) i) as [[oq t]|] eqn:E; [|exact H]. pose proof (H oq t (nth_error_In _ _ E)) as Ht.
      destruct (proceed lim fw_of build t (cr_registry s) (cr_caches s)) as [[t' reg'] st'] eqn:Ep.
      assert (K : kept t').
      { destruct t as [a L|X a go|p go]; cbn [Crowd.proceed] in Ep.
        - injection Ep as <- _ _. exact Ht.
        - destruct (perform lim a (cr_caches s)) as [v c]. injection Ep as <- _ _. apply Ht.
        - destruct p; try (destruct (advance o_type (accepts fw_of) build _ (cr_registry s)) as [p' reg2]; injection Ep as <- _ _; exact Ht). injection Ep as <- _ _. apply Ht. }
      intros oq' t0 I. cbn in I. apply in_update in I as [I|I]; [injection I as _ ->; exact K|exact (H oq' t0 I)].
  Qed.
  Lemma history_kept es : forall s, all_kept s -> all_kept (history lim U fw_of build library lib_einsum es s).
  Proof. induction es as [|e es IH]; intros s H; [exact H|]. apply IH, occurs_kept, H. Qed.
  Lemma nobody_kept : all_kept nobody.
  Proof. intros oq t []. Qed.

  Context (Hb : honest build) (Hlib : libraries_ok U library).
  Notation all_fine := (all_fine U fw_of library lib_einsum).
  Lemma layer_there s i o q a L : all_fine s -> all_kept s -> nth_error (cr_calls s) i = Some (o, q, Done a L) -> snd (answer_to U fw_of library lib_einsum o q []) <> [] -> layer_made s i <> None.
  Proof.
    intros [_ _ Hf] Hk E Hne. unfold layer_made. rewrite E. apply (Hk (o, q) (Done a L) (nth_error_In _ _ E)).
    destruct (proj1 (Forall_forall _ _) Hf _ (nth_error_In _ _ E)) as [_ [F _]].
    destruct q; try (exfalso; apply Hne; reflexivity).
    - destruct (F I) as [->|[_ (x & X & _)]]; [|discriminate]. unfold SpecCrowd.right. cbn [answer_to] in *. destruct (Rearrange _ _ _ _); [reflexivity|]. exfalso. apply Hne. reflexivity.
    - destruct (F I) as [->|[_ (x & X & _)]]; [|discriminate]. unfold SpecCrowd.right. cbn [answer_to] in *. destruct (Reduce _ _ _ _ _); [reflexivity|]. exfalso. apply Hne. reflexivity.
  Qed.
  Lemma layer_stays s e i : layer_made s i <> None -> layer_made (occurs lim U fw_of build library lib_einsum s e) i <> None.
  Proof.
    unfold layer_made. intros H. destruct (nth_error (cr_calls s) i) as [[oq t]|] eqn:E; [|contradiction]. destruct t as [a L| |]; try contradiction.
    destruct e as [o q|j|ms|b1 b2 b3 b4]; cbn [Crowd.occurs].
    - destruct (start _ _ _ _ _ _); [|rewrite E; exact H]. cbn. rewrite nth_error_app1 by (apply nth_error_Some; congruence). rewrite E. exact H.
    - destruct (nth_error (cr_calls s) j) as [[oq' t']|] eqn:Ej; [|rewrite E; exact H]. destruct (proceed lim fw_of build t' (cr_registry s) (cr_caches s)) as [[t2 r2] c2] eqn:Ep. cbn [cr_calls].
      rewrite nth_update by (apply nth_error_Some; congruence). destruct (Nat.eqb_spec j i) as [->|]; [|rewrite E; exact H].
      rewrite E in Ej. injection Ej as <- <-. cbn [Crowd.proceed] in Ep. injection Ep as <- _ _. exact H.
    - cbn. rewrite E. exact H.
    - cbn. rewrite E. exact H.
  Qed.
End Kept.

Section Team.
  Context {A R : Type} (lim : limits) (U : unicode) (fw_of : nat -> option framework) (build : nat -> bclass -> list pystr -> option exn * list pystr).
  Context (library : framework -> runtime A) (lib_einsum : framework -> pystr -> list (tensor A) -> result (tensor A)).
  Context (Hb : honest build) (Hlib : libraries_ok U library).
  Notation occurs := (occurs lim U fw_of build library lib_einsum).
  Notation history := (history lim U fw_of build library lib_einsum).
  Notation layer_by := (layer_by U library lib_einsum).
  Notation right := (right U library lib_einsum fw_of).
  Notation asks := (asks U library lib_einsum).
  Notation suitable := (suitable U library lib_einsum fw_of).
  Notation all_fine := (all_fine U fw_of library lib_einsum).
  Notation call_fine := (call_fine U fw_of library lib_einsum).
  Notation alone := (alone (R := R) U fw_of library lib_einsum).
  Notation outcome_alone := (outcome_alone (R := R) U fw_of library lib_einsum).
  Notation well_behaved := (well_behaved (R := R) U fw_of library lib_einsum).
  Implicit Types (o : orders) (q : request A) (s : crowd A) (e : occasion A) (w : worker A R) (p : script A R) (calls : list (orders * request A)).

  (** ** the process *)
  Record ready s : Prop := { r_fine : all_fine s; r_keys : keys_once s; r_kept : all_kept s }.
  Lemma ready_step s e : ready s -> event_ok e -> ready (occurs s e).
  Proof.
    intros [H1 H2 H3] He. split; [exact (proj1 (occurs_steps lim U fw_of build library lib_einsum Hb Hlib s e H1 He))|apply occurs_keys, H2|apply occurs_kept, H3].
  Qed.
  Lemma calls_grow s e : exists more, calls_of (occurs s e) = calls_of s ++ more.
  Proof.
    destruct e as [o q|i|ms|b1 b2 b3 b4]; cbn [Crowd.occurs]; [| |exists []; symmetry; apply app_nil_r|exists []; symmetry; apply app_nil_r].
    - destruct (start _ _ _ _ _ _) as [t|]; [|exists []; symmetry; apply app_nil_r]. exists [(o, q)]. unfold calls_of. cbn. apply map_app.
    - destruct (nth_error (cr_calls s) i) as [[oq t]|] eqn:E; [|exists []; symmetry; apply app_nil_r]. destruct (proceed _ _ _ _ _ _) as [[t' r'] c']. exists []. rewrite app_nil_r.
      unfold calls_of. cbn. eapply update_calls; [exact E|reflexivity].
  Qed.

  (** ** the layers of a thread *)
  Definition link s (i : nat) (c : orders * request A) : Prop :=
    i < length (calls_of s) /\ layer_by fw_of (calls_of s) i = snd (answer_to U fw_of library lib_einsum (fst c) (snd c) []) /\
    (layer_by fw_of (calls_of s) i <> [] -> layer_made s i <> None).
  Lemma link_step s e i c : link s i c -> link (occurs s e) i c.
  Proof.
    intros (H1 & H2 & H3). destruct (calls_grow s e) as [more E]. split; [rewrite E, app_length; lia|]. rewrite E, layer_by_app by exact H1. split; [exact H2|].
    intros H. apply layer_stays, H3, H.
  Qed.
  Lemma linked_step s e own calls : Forall2 (link s) own calls -> Forall2 (link (occurs s e)) own calls.
  Proof. intros H. induction H as [|i c own calls H HF IH]; constructor; [apply link_step, H|exact IH]. Qed.
  Lemma linked_layer s own calls k : Forall2 (link s) own calls -> layer_by fw_of calls k <> [] ->
    exists j, nth_error own k = Some j /\ j < length (calls_of s) /\ layer_by fw_of (calls_of s) j = layer_by fw_of calls k /\ layer_made s j <> None.
  Proof.
    intros H. revert k. induction H as [|i c own calls (H1 & H2 & H3) HF IH]; intros k Hne; [destruct k; contradiction|]. destruct k as [|k].
    - exists i. split; [reflexivity|]. split; [exact H1|]. unfold SpecCrowd.layer_by at 2. cbn. destruct c as [o q]. cbn in *. split; [exact H2|]. apply H3. rewrite H2. exact Hne.
    - apply IH. exact Hne.
  Qed.
  (** [q'] is what [q] is called in the process *)
  Definition named s calls q q' : Prop :=
    has_layer q' (calls_of s) /\
    match q with
    | UseLayer k x => exists j, q' = UseLayer j x /\ layer_by fw_of (calls_of s) j = layer_by fw_of calls k
    | _ => q' = q
    end.
  Lemma named_app s s' more calls q q' : calls_of s' = calls_of s ++ more -> named s calls q q' -> named s' calls q q'.
  Proof.
    intros E [H1 H2]. split.
    - destruct q'; auto. cbn in *. rewrite E, app_length. lia.
    - destruct q; auto. destruct H2 as (j & -> & H2). exists j. split; [reflexivity|]. rewrite E, layer_by_app by exact H1. exact H2.
  Qed.
  Lemma named_right s calls o q q' : named s calls q q' -> right (calls_of s) o q' = right calls o q.
  Proof. intros [_ H]. destruct q; try (subst q'; reflexivity). destruct H as (j & -> & H). unfold SpecCrowd.right. rewrite H. reflexivity. Qed.
  Lemma named_asks s calls q q' : named s calls q q' -> asks (calls_of s) q' = asks calls q.
  Proof.
    intros [_ H]. destruct q; try (subst q'; reflexivity). destruct H as (j & -> & H). unfold SpecCrowd.asks.
    rewrite !(layer_by_any U library lib_einsum (fun _ => None) fw_of), H. reflexivity.
  Qed.
  Lemma named_suitable s calls q q' : named s calls q q' -> suitable calls q -> suitable (calls_of s) q'.
  Proof. intros [_ H]. destruct q; try (subst q'; trivial). destruct H as (j & -> & H). unfold SpecCrowd.suitable. rewrite H. trivial. Qed.
  Lemma named_layers s calls o q q' : named s calls q q' -> snd (answer_to U fw_of library lib_einsum o q' []) = snd (answer_to U fw_of library lib_einsum o q []).
  Proof. intros [_ H]. destruct q; try (subst q'; reflexivity). destruct H as (j & -> & _). reflexivity. Qed.
  Lemma named_decent s own q : decent q -> decent (globally own s q).
  Proof. destruct q; auto. Qed.

  (** ** one thread *)
  Context (warm : object A -> Prop).
  Definition mine : ghost (A := A) := {| g_ms := []; g_use := warm |}.
  Definition warm_in s : Prop := forall x, warm x -> served fw_of x (cr_registry s).
  Definition in_call s calls o q (i : nat) (n : nat) : Prop :=
    exists q' t who, nth_error (cr_calls s) i = Some (o, q', t) /\ named s calls q q' /\ call_fine mine (calls_of s) (c_made (cr_caches s)) (cr_registry s) (o, q', t) /\ running who t n.
  (** [n]: the steps it needs at most *)
  Definition at_work calls0 p0 w s (n : nat) : Prop := exists calls,
    Forall2 (link s) (w_own w) calls /\ well_behaved warm calls (w_script w) /\
    w_heard w ++ alone calls (w_script w) = alone calls0 p0 /\ outcome_alone calls (w_script w) = outcome_alone calls0 p0 /\
    match w_now w with
    | None => n = 71 * length (alone calls (w_script w))
    | Some i => match w_script w with
                | Over _ => False
                | Calling o q next => exists m, in_call s calls o q i m /\ n = m + 1 + 71 * length (alone (calls ++ [(o, q)]) (next (right calls o q)))
                end
    end.

  Lemma running_more who (t : task A) n m : n <= m -> running who t n -> running who t m.
  Proof.
    intros H. destruct t as [a L|X a go|p go]; cbn; [trivial| |].
    - intros (k & H1 & H2). exists k. split; [lia|exact H2].
    - intros (H0 & k & H1 & H2). split; [exact H0|]. exists k. split; [lia|exact H2].
  Qed.
  Lemma in_call_step s calls o q i n e : ready s -> event_ok e -> in_call s calls o q i n ->
    in_call (occurs s e) calls o q i (if match e with Move j => i =? j | _ => false end then pred n else n).
  Proof.
    intros Hr He (q' & t & who & H1 & H2 & H3 & H4). pose proof Hr as [Hf Hk _].
    destruct (follow lim U fw_of build library lib_einsum Hb Hlib mine i [e] s (o, q', t) Hf) as (c' & M1 & M2 & M3); [intros e' [<-|[]]; exact He| |apply incl_nil_l|exact H1|exact H3|].
    { destruct e; cbn; auto using incl_nil_l. }
    cbn [Crowd.history fold_left] in M1, M3. destruct c' as [[o2 q2] t']. cbn [fst] in M2. injection M2 as -> ->. exists q', t', who. split; [exact M1|].
    split; [destruct (calls_grow s e) as [more E]; eapply named_app; eassumption|]. split; [exact M3|].
    clear M3. destruct e as [o2 q2|j|ms|b1 b2 b3 b4]; cbn [Crowd.occurs] in M1.
    - destruct (start U library lib_einsum o2 q2 (layer_made s)); cbn in M1; [rewrite nth_error_app1 in M1 by (apply nth_error_Some; congruence)|]; rewrite H1 in M1; injection M1 as <-; exact H4.
    - destruct (nth_error (cr_calls s) j) as [[oq tj]|] eqn:Ej.
      + destruct (proceed lim fw_of build tj (cr_registry s) (cr_caches s)) as [[t2 reg2] st2] eqn:Ep. cbn [cr_calls] in M1. rewrite nth_update in M1 by (apply nth_error_Some; congruence).
        rewrite Nat.eqb_sym. destruct (Nat.eqb_spec j i) as [->|Hne].
        * injection M1 as E1 E2. rewrite E2 in *. rewrite H1 in Ej. injection Ej as <- <-.
          apply (proceed_running fw_of build lim who t n (cr_registry s) (cr_caches s) t' reg2 st2 H4); [| |exact Ep].
          -- apply (loaded_few (A := A) fw_of); [apply Hf|exact Hk].
          -- destruct t as [| |pt go]; try exact I. eapply asking_placed; eassumption.
        * rewrite H1 in M1. injection M1 as <-. exact H4.
      + rewrite H1 in M1. injection M1 as <-. destruct (Nat.eqb_spec i j) as [->|]; [congruence|exact H4].
    - cbn in M1. rewrite H1 in M1. injection M1 as <-. exact H4.
    - cbn in M1. rewrite H1 in M1. injection M1 as <-. exact H4.
  Qed.
  Lemma in_call_more s calls o q i n m : n <= m -> in_call s calls o q i n -> in_call s calls o q i m.
  Proof. intros H (q' & t & who & H1 & H2 & H3 & H4). exists q', t, who. repeat (split; [assumption|]). eapply running_more; eassumption. Qed.

  (** something happens elsewhere *)
  Lemma at_work_step calls0 p0 w s n e : ready s -> event_ok e -> at_work calls0 p0 w s n -> at_work calls0 p0 w (occurs s e) n.
  Proof.
    intros Hr He (calls & H1 & H2 & H3 & H4 & H5). exists calls. split; [apply linked_step, H1|]. split; [exact H2|]. split; [exact H3|]. split; [exact H4|].
    destruct (w_now w) as [i|]; [|exact H5]. destruct (w_script w) as [r|o q next]; [exact H5|]. destruct H5 as (m & H5 & H6). exists m. split; [|exact H6].
    apply (in_call_step s calls o q i m e Hr He) in H5. eapply in_call_more; [|exact H5]. destruct (match e with Move j => i =? j | _ => false end); lia.
  Qed.

  (** the thread makes a step *)
  Lemma at_work_turn calls0 p0 w s n : ready s -> warm_in s -> decent_script (w_script w) -> at_work calls0 p0 w s n ->
    exists n', n' <= pred n /\ at_work calls0 p0 (fst (turn lim U fw_of build library lib_einsum w s)) (snd (turn lim U fw_of build library lib_einsum w s)) n'.
  Proof.
    intros Hr Hw Hd (calls & H1 & H2 & H3 & H4 & H5). unfold turn. destruct (w_script w) as [r|o q next] eqn:Es.
    { exists 0. split; [lia|]. cbn [fst snd]. exists calls. rewrite Es. destruct (w_now w); [contradiction|]. cbn. auto. }
    cbn [SpecTeam.well_behaved SpecTeam.alone SpecTeam.outcome_alone decent_script] in *. destruct H2 as (Hl & Hs & Ha & Hn). destruct Hd as (Ho & Hq & Hd).
    destruct (w_now w) as [i|] eqn:En.
    - destruct H5 as (m & H5 & H6). pose proof H5 as (q' & t & who & K1 & K2 & K3 & K4). rewrite K1.
      assert (Step : (forall a L, t <> Done a L) -> exists n', n' <= pred n /\ at_work calls0 p0 w (occurs s (Move i)) n').
      { intros Ht. exists (pred m + 1 + 71 * length (alone (calls ++ [(o, q)]) (next (right calls o q)))).
        assert (m <> 0).
        { intros ->. destruct t as [a L|X a go|pt go]; [exact (Ht a L eq_refl)|cbn in K4; destruct K4 as (k & K4 & _); lia|].
          cbn in K4. destruct K4 as (_ & k & K4 & _). assert (0 < cost pt) by (destruct pt; cbn; lia). lia. }
        split; [lia|]. exists calls. rewrite Es, En. split; [apply linked_step, H1|]. split; [split; [exact Hl|]; split; [exact Hs|]; split; [exact Ha|exact Hn]|]. split; [exact H3|]. split; [exact H4|].
        exists (pred m). split; [|reflexivity]. pose proof (in_call_step s calls o q i m (Move i) Hr I H5) as X. cbv iota beta in X. rewrite (Nat.eqb_refl i) in X. exact X. }
      destruct t as [a L|X a go|pt go]; [|apply Step; discriminate|apply Step; discriminate]. clear Step. cbn [fst snd].
      assert (Ea : a = right calls o q).
      { rewrite <- (named_right s calls o q q' K2). destruct K3 as [_ [F _]]. destruct (F (named_suitable s calls q q' K2 Hs)) as [E|(_ & x & E1 & E2 & _)]; [exact E|].
        exfalso. apply E2. cbn. apply Ha. rewrite <- (named_asks s calls q q' K2). exact E1. }
      subst a. exists (71 * length (alone (calls ++ [(o, q)]) (next (right calls o q)))). split; [lia|]. exists (calls ++ [(o, q)]). cbn [w_script w_now w_own w_heard].
      split; [|split; [exact Hn|split; [rewrite <- app_assoc; exact H3|split; [exact H4|reflexivity]]]].
      apply Forall2_app; [exact H1|]. constructor; [|constructor].
      assert (Ei : nth_error (calls_of s) i = Some (o, q')) by (unfold calls_of; rewrite nth_error_map, K1; reflexivity).
      split; [apply nth_error_Some; congruence|]. unfold SpecCrowd.layer_by. rewrite Ei. cbn [fst snd]. split; [apply (named_layers s calls o q q' K2)|].
      intros Hne. exact (layer_there U fw_of library lib_einsum s i o q' _ L (r_fine s Hr) (r_kept s Hr) K1 Hne).
    - set (q' := globally (w_own w) s q).
      assert (Hstart : exists t, start U library lib_einsum o q' (layer_made s) = Some t).
      { unfold q'. destruct q; cbn [globally start]; eauto. destruct (linked_layer s _ calls k H1 Hl) as (j & J1 & J2 & J3 & J4).
        rewrite (nth_error_nth _ _ _ J1). destruct (layer_made s j); [eauto|contradiction]. }
      destruct Hstart as [t Et].
      assert (Hne : length (cr_calls (occurs s (Enter o q'))) =? length (cr_calls s) = false).
      { apply Nat.eqb_neq. cbn [Crowd.occurs]. rewrite Et. cbn. rewrite app_length. cbn. lia. }
      rewrite Hne. cbn [fst snd].
      assert (Hq' : decent q') by apply named_decent, Hq.
      assert (Nm : named s calls q q' /\ asks (calls_of s) q' = asks calls q).
      { assert (Nm : named s calls q q').
        { unfold q'. destruct q; try (split; [exact I|reflexivity]). cbn [globally]. destruct (linked_layer s _ calls k H1 Hl) as (j & J1 & J2 & J3 & J4).
          rewrite (nth_error_nth _ _ _ J1). split; [exact J2|]. exists j. auto. }
        split; [exact Nm|apply named_asks, Nm]. }
      destruct Nm as [Nm _].
      exists (69 + 1 + 71 * length (alone (calls ++ [(o, q)]) (next (right calls o q)))).
      split; [rewrite H5; cbn [length]; lia|].
      exists calls. cbn [w_script w_now w_own w_heard]. split; [apply linked_step, H1|]. split; [split; [exact Hl|]; split; [exact Hs|]; split; [exact Ha|exact Hn]|].
      split; [exact H3|]. split; [exact H4|]. exists 69. split; [|reflexivity].
      pose proof (enter_fine U fw_of library lib_einsum Hlib s o q' t mine (r_fine s Hr) Ho Hq' Hw Et) as Hc.
      exists q', t, (asks (calls_of s) q'). destruct (calls_grow s (Enter o q')) as [more E]. split; [|split; [eapply named_app; eassumption|split]].
      + cbn [Crowd.occurs]. rewrite Et. cbn. rewrite nth_error_app2, Nat.sub_diag by lia. reflexivity.
      + rewrite E. apply call_fine_app. cbn [Crowd.occurs]. rewrite Et. exact Hc.
      + apply shape_running. eapply (start_shape U library lib_einsum fw_of); [|exact Et]. intros k L El.
        destruct (layer_made_held U fw_of library lib_einsum s k L (r_fine s Hr) El) as (_ & l & L1 & L2 & _). exists l. auto.
  Qed.
  Lemma turn_crowd w s : decent_script (w_script w) ->
    (snd (turn lim U fw_of build library lib_einsum w s) = s \/ exists e, event_ok e /\ snd (turn lim U fw_of build library lib_einsum w s) = occurs s e) /\
    decent_script (w_script (fst (turn lim U fw_of build library lib_einsum w s))).
  Proof.
    intros Hd. unfold turn. destruct (w_script w) as [r|o q next] eqn:Es; [cbn; rewrite Es; auto|].
    assert (Hself : decent_script (w_script w)) by (rewrite Es; exact Hd). cbn [decent_script] in Hd. destruct Hd as (Ho & Hq & Hd).
    destruct (w_now w) as [i|].
    - destruct (nth_error (cr_calls s) i) as [[oq [a L|X a go|pt go]]|]; cbn [fst snd w_script].
      + split; [left; reflexivity|apply Hd].
      + split; [right; exists (Move i); split; [exact I|reflexivity]|exact Hself].
      + split; [right; exists (Move i); split; [exact I|reflexivity]|exact Hself].
      + split; [right; exists (Move i); split; [exact I|reflexivity]|exact Hself].
    - cbn [fst snd]. split.
      + right. exists (Enter o (globally (w_own w) s q)). split; [|reflexivity]. split; [exact Ho|apply named_decent, Hq].
      + destruct (_ =? _); [exact Hself|]. cbn [w_script]. split; [exact Ho|]. split; [exact Hq|exact Hd].
  Qed.

  (** ** the team *)
  Definition team_ok (tm : team A R) : Prop := ready (tm_crowd tm) /\ warm_in (tm_crowd tm) /\ forall w, In w (tm_workers tm) -> decent_script (w_script w).
  Lemma warm_step s e : ready s -> event_ok e -> warm_in s -> warm_in (occurs s e).
  Proof.
    intros Hr He Hw x Hx. destruct (occurs_steps lim U fw_of build library lib_einsum Hb Hlib s e (r_fine s Hr) He) as (_ & _ & G & _). eapply served_grew; [exact G|apply Hw, Hx].
  Qed.
  Definition team_event_ok (e : team_event A) : Prop := match e with Besides e => event_ok e | Turn _ => True end.
  Notation goes_on := (goes_on lim U fw_of build library lib_einsum).
  Notation team_run := (team_run lim U fw_of build library lib_einsum).
  Lemma team_step tm (e : team_event A) : team_ok tm -> team_event_ok e -> team_ok (goes_on tm e).
  Proof.
    intros (H1 & H2 & H3) He. destruct e as [t|e]; cbn [Team.goes_on].
    - destruct (nth_error (tm_workers tm) t) as [w|] eqn:E; [|split; auto].
      destruct (turn_crowd w (tm_crowd tm) (H3 w (nth_error_In _ _ E))) as [K1 K2].
      destruct (turn lim U fw_of build library lib_einsum w (tm_crowd tm)) as [w' s']. cbn [fst snd] in *. split; [|split]; cbn [tm_crowd tm_workers].
      + destruct K1 as [->|(e & He' & ->)]; [exact H1|apply ready_step; assumption].
      + destruct K1 as [->|(e & He' & ->)]; [exact H2|apply warm_step; assumption].
      + intros w0 I. apply in_update in I as [->|I]; [exact K2|exact (H3 w0 I)].
    - split; [apply ready_step; assumption|]. split; [apply warm_step; assumption|exact H3].
  Qed.
  Lemma team_follow calls0 p0 t (es : list (team_event A)) : forall tm w n, team_ok tm -> (forall e : team_event A, In e es -> team_event_ok e) -> nth_error (tm_workers tm) t = Some w -> at_work calls0 p0 w (tm_crowd tm) n ->
    exists w', nth_error (tm_workers (team_run es tm)) t = Some w' /\ exists n', n' <= n - turns t es /\ at_work calls0 p0 w' (tm_crowd (team_run es tm)) n'.
  Proof.
    induction es as [|e es IH]; intros tm w n Ht He Hw Ha; [exists w; split; [exact Hw|]; exists n; split; [cbn; lia|exact Ha]|].
    assert (Hee : team_event_ok e) by (apply He; left; reflexivity). assert (Hes : forall e' : team_event A, In e' es -> team_event_ok e') by (intros e' I; apply He; right; exact I).
    pose proof (team_step tm e Ht Hee) as Ht'. pose proof Ht as (R1 & R2 & R3). cbn [Team.team_run fold_left]. unfold turns. cbn [filter].
    assert (Same : forall e' : occasion A, event_ok e' -> nth_error (tm_workers (goes_on tm e)) t = Some w -> tm_crowd (goes_on tm e) = occurs (tm_crowd tm) e' ->
      exists w', nth_error (tm_workers (team_run es (goes_on tm e))) t = Some w' /\ exists n', n' <= n - turns t es /\ at_work calls0 p0 w' (tm_crowd (team_run es (goes_on tm e))) n').
    { intros e' He' Hw' Ec. apply (IH _ w n Ht' Hes Hw'). rewrite Ec. apply at_work_step; assumption. }
    destruct e as [u|e].
    - destruct (nth_error (tm_workers tm) u) as [wu|] eqn:Eu.
      + assert (Lu : u < length (tm_workers tm)) by (apply nth_error_Some; congruence). destruct (Nat.eqb_spec t u) as [<-|Hne].
        * rewrite Hw in Eu. injection Eu as <-. destruct (at_work_turn calls0 p0 w (tm_crowd tm) n R1 R2 (R3 w (nth_error_In _ _ Hw)) Ha) as (n1 & N1 & N2).
          cbn [Team.goes_on] in *. rewrite Hw in *. destruct (turn lim U fw_of build library lib_einsum w (tm_crowd tm)) as [w1 s1]. cbn [fst snd] in N2.
          destruct (IH {| tm_crowd := s1; tm_workers := firstn t (tm_workers tm) ++ w1 :: skipn (S t) (tm_workers tm) |} w1 n1 Ht' Hes) as (w' & W1 & n' & W2 & W3); [|exact N2|].
          { cbn [tm_workers]. rewrite nth_update by exact Lu. rewrite Nat.eqb_refl. reflexivity. }
          exists w'. split; [exact W1|]. exists n'. split; [cbn [length]; fold (turns (A := A) t es); lia|exact W3].
        * fold (turns (A := A) t es). destruct (turn_crowd wu (tm_crowd tm) (R3 wu (nth_error_In _ _ Eu))) as [K1 _].
          assert (Hw' : nth_error (tm_workers (goes_on tm (Turn u))) t = Some w).
          { cbn [Team.goes_on]. rewrite Eu. destruct (turn lim U fw_of build library lib_einsum wu (tm_crowd tm)) as [w1 s1]. cbn [tm_workers]. rewrite nth_update by exact Lu.
            destruct (Nat.eqb_spec u t); [congruence|exact Hw]. }
          assert (Ec : tm_crowd (goes_on tm (Turn u)) = snd (turn lim U fw_of build library lib_einsum wu (tm_crowd tm))).
          { cbn [Team.goes_on]. rewrite Eu. destruct (turn lim U fw_of build library lib_einsum wu (tm_crowd tm)) as [w1 s1]. reflexivity. }
          destruct K1 as [K1|(e & He' & K1)]; rewrite K1 in Ec.
          -- apply (IH _ w n Ht' Hes Hw'). rewrite Ec. exact Ha.
          -- apply (Same e He' Hw' Ec).
      + destruct (Nat.eqb_spec t u) as [<-|Hne]; [congruence|]. fold (turns (A := A) t es). cbn [Team.goes_on] in *. rewrite Eu in *. apply (IH tm w n Ht' Hes Hw Ha).
    - fold (turns (A := A) t es). apply (Same e Hee); [exact Hw|reflexivity].
  Qed.
End Team.

Section Theorems.
  Context {A R : Type} (lim : limits) (U : unicode) (fw_of : nat -> option framework) (build : nat -> bclass -> list pystr -> option exn * list pystr).
  Context (library : framework -> runtime A) (lib_einsum : framework -> pystr -> list (tensor A) -> result (tensor A)).
  Context (Hb : honest build) (Hlib : libraries_ok U library).
  Notation alone := (alone (R := R) U fw_of library lib_einsum).
  Notation outcome_alone := (outcome_alone (R := R) U fw_of library lib_einsum).
  Lemma team_facts es0 (starts : list (list nat * script A R)) t own p calls es : decent_events es0 ->
    let s := history lim U fw_of build library lib_einsum es0 nobody in
    (forall own' p', In (own', p') starts -> decent_script p') -> decent_besides es -> nth_error starts t = Some (own, p) -> handed s own calls ->
    well_behaved U fw_of library lib_einsum (fun x => settled fw_of x (cr_registry s)) calls p ->
    let tm := team_run lim U fw_of build library lib_einsum es {| tm_crowd := s; tm_workers := map (fun c => new_worker (fst c) (snd c)) starts |} in
    exists w, nth_error (tm_workers tm) t = Some w /\ exists n, n <= 71 * length (alone calls p) - turns t es /\
      at_work U fw_of library lib_einsum (fun x => settled fw_of x (cr_registry s)) calls p w (tm_crowd tm) n.
  Proof.
    intros H0 s Hd He Ht Hh Hw.
    assert (Hr : ready U fw_of library lib_einsum s).
    { split; [apply history_fine; [exact Hb|exact Hlib|apply nobody_fine|apply events_ok, H0]|apply history_keys; constructor|apply history_kept, nobody_kept]. }
    set (tm0 := {| tm_crowd := s; tm_workers := map (fun c => new_worker (fst c) (snd c)) starts |}).
    apply (team_follow lim U fw_of build library lib_einsum Hb Hlib (fun x => settled fw_of x (cr_registry s)) calls p t es tm0 (new_worker own p)).
    - split; [exact Hr|]. split; [intros x Hx; apply settled_served; [apply Hr|exact Hx]|]. intros w I. cbn in I. apply in_map_iff in I as ([own' p'] & <- & I). exact (Hd own' p' I).
    - intros [u|[o q|i|ms|b1 b2 b3 b4]] I; try exact Logic.I. exact (He o q I).
    - cbn. rewrite nth_error_map, Ht. reflexivity.
    - exists calls. cbn [new_worker w_own w_script w_heard w_now tm_crowd tm0]. split; [|auto].
      unfold handed in Hh. clear Ht Hw. induction Hh as [|i [o q] own' calls' (a & L & H) HF IH]; constructor; [|exact IH]. cbn [fst snd] in *.
      assert (Ei : nth_error (calls_of s) i = Some (o, q)) by (unfold calls_of; rewrite nth_error_map, H; reflexivity).
      split; [apply nth_error_Some; congruence|]. unfold SpecCrowd.layer_by. rewrite Ei. split; [reflexivity|]. cbn [snd].
      intros Hne. exact (layer_there U fw_of library lib_einsum s i o q a L (r_fine _ _ _ _ s Hr) (r_kept _ _ _ _ s Hr) H Hne).
  Qed.
  Theorem team_answers es0 (starts : list (list nat * script A R)) t own p calls es w : decent_events es0 ->
    let s := history lim U fw_of build library lib_einsum es0 nobody in
    (forall own' p', In (own', p') starts -> decent_script p') -> decent_besides es -> nth_error starts t = Some (own, p) -> handed s own calls ->
    well_behaved U fw_of library lib_einsum (fun x => settled fw_of x (cr_registry s)) calls p ->
    nth_error (tm_workers (team_run lim U fw_of build library lib_einsum es {| tm_crowd := s; tm_workers := map (fun c => new_worker (fst c) (snd c)) starts |})) t = Some w ->
    (exists rest, alone calls p = w_heard w ++ rest) /\
    (forall r, w_script w = Over r -> w_heard w = alone calls p /\ r = outcome_alone calls p).
  Proof.
    intros H0 s Hd He Ht Hh Hw E. destruct (team_facts es0 starts t own p calls es H0 Hd He Ht Hh Hw) as (w' & E' & n & _ & calls' & _ & _ & K1 & K2 & _).
    assert (X : Some w = Some w') by (etransitivity; [symmetry; exact E|exact E']). injection X as <-. split; [eauto|]. intros r Er. rewrite Er in *. cbn in K1, K2. rewrite app_nil_r in K1. auto.
  Qed.
  Theorem team_ends es0 (starts : list (list nat * script A R)) t own p calls es : decent_events es0 ->
    let s := history lim U fw_of build library lib_einsum es0 nobody in
    (forall own' p', In (own', p') starts -> decent_script p') -> decent_besides es -> nth_error starts t = Some (own, p) -> handed s own calls ->
    well_behaved U fw_of library lib_einsum (fun x => settled fw_of x (cr_registry s)) calls p -> 71 * length (alone calls p) <= turns t es ->
    exists w, nth_error (tm_workers (team_run lim U fw_of build library lib_einsum es {| tm_crowd := s; tm_workers := map (fun c => new_worker (fst c) (snd c)) starts |})) t = Some w /\
      w_script w = Over (outcome_alone calls p) /\ w_heard w = alone calls p.
  Proof.
    intros H0 s Hd He Ht Hh Hw Hn. destruct (team_facts es0 starts t own p calls es H0 Hd He Ht Hh Hw) as (w & E & n & Hle & calls' & _ & _ & K1 & K2 & K3).
    exists w. split; [exact E|]. assert (n = 0) by lia. subst n.
    destruct (w_now w) as [i|].
    - destruct (w_script w) as [r|o q next]; [contradiction|]. destruct K3 as (m & _ & K3). lia.
    - destruct (w_script w) as [r|o q next]; [|cbn [SpecTeam.alone length] in K3; lia]. cbn in K1, K2. rewrite app_nil_r in K1. split; [congruence|exact K1].
  Qed.
End Theorems.

(** a program that names a layer it does not have stands still; it never gets the layer
    of another program *)
Lemma turn_stands {A R} lim U fw_of build library lib_einsum (w : worker A R) s o k x next :
  w_script w = Calling o (UseLayer k x) next -> w_now w = None -> length (w_own w) <= k -> turn lim U fw_of build library lib_einsum w s = (w, s).
Proof.
  intros E N H. unfold turn. rewrite E, N. cbn [globally]. rewrite (nth_overflow _ _ H).
  assert (X : occurs lim U fw_of build library lib_einsum s (Enter o (UseLayer (length (cr_calls s)) x)) = s).
  { cbn [occurs start]. unfold layer_made. rewrite (proj2 (nth_error_None (cr_calls s) _)) by lia. reflexivity. }
  rewrite X, Nat.eqb_refl. reflexivity.
Qed.
