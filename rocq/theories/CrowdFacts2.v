(** * Calls in several threads: the calls *)
From Verif Require Import Py Tensor Parsing Recipe Ops Backends Api ApiFacts6 Packing Einsum Registry SpecGrammar SpecRegistry RegistryFacts Cache CacheFacts
  Layers ListFacts ParseFacts SpecSpelling MixFacts9 SpellingFacts Session SpecSession SessionFacts Threads SpecThreads ThreadFacts CacheThreads CacheThreadFacts Crowd SpecCrowd CrowdFacts.

Section Calls.
  Context {A : Type} (lim : limits) (U : unicode) (HU : unicode_ok U).
  Context (fw_of : nat -> option framework) (build : nat -> bclass -> list pystr -> option exn * list pystr).
  Context (library : framework -> runtime A) (lib_einsum : framework -> pystr -> list (tensor A) -> result (tensor A)).
  Context (Hb : honest build) (Hl : forall f, rt_framework (library f) = f /\ rt_unicode (library f) = U).
  Notation sound := (CacheFacts.sound int_ops U).
  Notation right := (right U library lib_einsum).
  Notation refused := (refused U library lib_einsum).
  Notation layer_by := (layer_by U library lib_einsum).
  Notation asks := (asks U library lib_einsum).
  Notation suitable := (suitable U library lib_einsum fw_of).
  Implicit Types (o : orders) (q : request A) (calls : list (orders * request A)) (g : ghost (A := A)).

  Definition layer_held (made : list recipe) (s : stored_layer A) (l : bool * layer (tensor A)) : Prop :=
    sl_torch s = fst l /\ Forall (held made) (sl_recipes s) /\
    exists pattern, same_layer U (mkLayer pattern (sl_red s) (sl_sizes s) (map strip (sl_recipes s))) (snd l).
  (** what holds of the answer to [q] and of the layer that was made *)
  Definition fair o q calls g (made : list recipe) (reg : registry) (a : answer A) (L : option (stored_layer A)) : Prop :=
    (suitable calls q -> a = right fw_of calls o q \/
       (a = refused calls o q /\ exists x, asks calls q = Some x /\ ~ g_use g x /\ all_in_use g reg)) /\
    (forall s, L = Some s -> exists l, snd (answer_to U fw_of library lib_einsum o q []) = [l] /\ layer_held made s l).
  Lemma fair_later o q calls g made made' reg reg' a L : extends made made' -> grew reg reg' -> fair o q calls g made reg a L -> fair o q calls g made' reg' a L.
  Proof.
    intros E G [H1 H2]. split.
    - intros S. destruct (H1 S) as [H|(H & x & Hx & Hu & Hc)]; [left; exact H|right]. split; [exact H|]. exists x. split; [exact Hx|]. split; [exact Hu|].
      exact (all_in_use_grew _ _ _ G Hc).
    - intros s Es. destruct (H2 s Es) as (l & El & K1 & K2 & K3). exists l. split; [exact El|]. split; [exact K1|]. split; [exact (held_extends _ _ _ E K2)|exact K3].
  Qed.
  Lemma layers_any fw fw' o q : snd (answer_to U fw library lib_einsum o q []) = snd (answer_to U fw' library lib_einsum o q []).
  Proof. destruct q; reflexivity. Qed.
  Lemma layer_by_any fw fw' calls k : layer_by fw calls k = layer_by fw' calls k.
  Proof. unfold SpecCrowd.layer_by. destruct (nth_error calls k) as [[o q]|]; [apply layers_any|reflexivity]. Qed.

  Notation good o q calls g := (good U fw_of g (fair o q calls g)).
  Lemma fair_right o q calls g made reg a : a = right fw_of calls o q -> fair o q calls g made reg a None.
  Proof. intros E. split; [intros _; left; exact E|discriminate]. Qed.
  Lemma fair_refused o q calls g made reg a x : a = refused calls o q -> asks calls q = Some x ->
    (fw_of (o_type x) = None -> refused calls o q = right fw_of calls o q) ->
    fw_of (o_type x) = None \/ (~ g_use g x /\ all_in_use g reg) -> fair o q calls g made reg a None.
  Proof.
    intros E Ha Hn [H|[H1 H2]]; (split; [|discriminate]); intros _; [left; rewrite E; exact (Hn H)|right]. split; [exact E|]. exists x. auto.
  Qed.

  (** a call that does not go through a cache after it has its backend *)
  Lemma ask_right {V} o q calls g made reg x (wrap : result V -> answer A) (v : framework -> result V) :
    (g_use g x -> served fw_of x reg) -> asks calls q = Some x ->
    (forall f, fw_of (o_type x) = Some f -> right fw_of calls o q = wrap (v f)) ->
    (fw_of (o_type x) = None -> right fw_of calls o q = wrap (Err RuntimeError)) -> refused calls o q = wrap (Err RuntimeError) ->
    good o q calls g made reg (ask x wrap (fun f => finish (wrap (v f)))).
  Proof.
    intros Hu Ha H1 H2 H3. apply ask_good; [exact Hu| |].
    - intros made' reg' f _ _ Ef. cbn. apply fair_right. rewrite (H1 f Ef). reflexivity.
    - intros made' reg' _ _ Hr. apply (fair_refused _ _ _ _ _ _ _ x); [auto|exact Ha|intros N; rewrite H3, (H2 N); reflexivity|exact Hr].
  Qed.

  Lemma einsum_good o args calls g made reg : (forall x, g_use g x -> served fw_of x reg) ->
    good o (DoEinsum args) calls g made reg (start_einsum U lib_einsum args).
  Proof.
    intros Hu. unfold start_einsum.
    assert (El : last (map arg_data args) (inr []) = arg_data (last args (inr []))).
    { clear. induction args as [|a args IH]; [reflexivity|]. destruct args as [|b args]; [reflexivity|]. exact IH. }
    assert (Er : removelast (map arg_data args) = map arg_data (removelast args)).
    { clear. induction args as [|a args IH]; [reflexivity|]. destruct args as [|b args]; [reflexivity|]. cbn [map removelast] in *. f_equal. exact IH. }
    destruct args as [|a [|b args]]; [cbn; apply fair_right; reflexivity|cbn; apply fair_right; destruct a; reflexivity|].
    remember (a :: b :: args) as all eqn:Eall.
    assert (Hlen : (length all <=? 1) = false) by (rewrite Eall; reflexivity).
    assert (Hlen' : (length (map (arg_data (A := A)) all) <=? 1) = false) by (rewrite map_length; exact Hlen).
    rewrite Hlen.
    assert (Rt : forall fw, right fw calls o (DoEinsum all) = tensor_answer (match a with
        | inl x => match fw (o_type x) with
                   | Some f => einsum_with U (match f with Keras => fun _ _ => Err NotImplementedError | _ => lib_einsum f end) (map arg_data all)
                   | None => einsum_given (fun _ _ => Err RuntimeError) (fun p => let* _ := compactify U p in Err RuntimeError) (map arg_data all)
                   end
        | inr _ => einsum_with U (fun _ _ => Err RuntimeError) (map arg_data all)
        end)) by (intros fw; rewrite Eall; destruct a; reflexivity).
    assert (Ra : asks calls (DoEinsum all) = match a with inl x => Some x | inr _ => None end) by (rewrite Eall; reflexivity).
    assert (Ehd : exists rest, removelast all = a :: rest) by (rewrite Eall; cbn [removelast]; eauto). destruct Ehd as [rest Ehd].
    unfold einsum_with, einsum_given in Rt. rewrite Hlen', El, Er in Rt. cbn [raise_if bind] in Rt.
    destruct (last all (inr [])) as [t|pattern] eqn:Elast; cbn [arg_data] in Rt.
    - cbn. apply fair_right. rewrite Rt. destruct a as [x|s]; [|reflexivity]. destruct (fw_of (o_type x)); reflexivity.
    - apply compacted_good. intros made' reg' E G. destruct (compactify U pattern) as [compact|e]; cbn [bind] in Rt.
      + rewrite Ehd in *. cbn [map] in Rt |- *. destruct a as [x|s]; cbn [arg_data] in Rt |- *.
        * apply (ask_right o (DoEinsum all) calls g made' reg' x tensor_answer
            (fun f => let* ts := mapM as_tensor (inl (o_data x) :: map arg_data rest) in backend_einsum lib_einsum f compact ts)).
          -- intros H. exact (served_grew _ _ _ _ G (Hu x H)).
          -- exact Ra.
          -- intros f Ef. rewrite Rt, Ef. reflexivity.
          -- intros N. rewrite Rt, N. reflexivity.
          -- unfold SpecCrowd.refused. rewrite Rt. reflexivity.
        * cbn. apply fair_right. rewrite Rt. reflexivity.
      + cbn. apply fair_right. rewrite Rt. destruct a as [x|s]; [|reflexivity]. destruct (fw_of (o_type x)); reflexivity.
  Qed.

  Lemma reduce_good o x p red id sizes calls g made reg : (forall x, g_use g x -> served fw_of x reg) -> orders_ok o ->
    NoDup (map fst sizes) -> opkey_of red id <> None ->
    good o (DoReduce x p red id sizes) calls g made reg
      (match check_kwargs reserved_kwargs sizes with
       | Err e => finish (tensor_answer (Err e))
       | Ok _ => match first_of x with
                 | None => finish (tensor_answer (Err TypeError))
                 | Some t => ask t tensor_answer (fun f => of_rest (begin (rt library f o) (CallReduce (input_data x) p red id sizes)))
                 end
       end).
  Proof.
    intros Hu Ho Hn Hk.
    assert (Rt : forall fw, right fw calls o (DoReduce x p red id sizes) = tensor_answer (let* _ := check_kwargs reserved_kwargs sizes in
           match first_of x with Some t => known fw t (fun f => reduce (rtm library f o) (input_data x) p red sizes) | None => Err TypeError end)) by reflexivity.
    destruct (check_kwargs reserved_kwargs sizes) as [u|e]; cbn [bind] in Rt; [|cbn; apply fair_right; rewrite Rt; reflexivity].
    destruct (first_of x) as [t|] eqn:Et; [|cbn; apply fair_right; rewrite Rt; reflexivity]. apply ask_good; [exact (Hu t)| |].
    - intros made' reg' f E G Ef. apply (of_rest_good U fw_of g _ (compute (rt library f o) (CallReduce (input_data x) p red id sizes))).
      + apply begin_good; [apply (rt_good U HU library Hl f o Ho)|apply (rt_uni U library Hl)|split; assumption].
      + intros made2 reg2 _ _. apply fair_right. rewrite Rt. unfold known. rewrite Ef. reflexivity.
    - intros made' reg' E G Hr. apply (fair_refused _ _ _ _ _ _ _ t); [unfold SpecCrowd.refused; rewrite Rt; reflexivity|exact Et| |exact Hr].
      intros N. unfold SpecCrowd.refused. rewrite !Rt. unfold known. rewrite N. reflexivity.
  Qed.

  Lemma pack_good o ts p calls g made reg : (forall x, g_use g x -> served fw_of x reg) -> good o (DoPack ts p) calls g made reg (start_pack U library ts p).
  Proof.
    intros Hu. unfold start_pack. apply analyzed_good. intros made' reg' E G.
    assert (Rt : forall fw, right fw calls o (DoPack ts p) = packed_answer (let* _ := analyze_pattern U p in
           match ts with [] => Err IndexError | x :: _ => known fw x (fun f => pack (rtm library f o) (map o_data ts) p) end)) by reflexivity.
    destruct (analyze_pattern U p) as [a|e] eqn:Ea; cbn [bind] in Rt; [|cbn; apply fair_right; rewrite Rt; reflexivity].
    destruct ts as [|x ts]; [cbn; apply fair_right; rewrite Rt; reflexivity|].
    apply (ask_right o (DoPack (x :: ts) p) calls g made' reg' x packed_answer (fun f => pack_given (b_shape (rt_backend (library f))) (b_reshape (rt_backend (library f))) (b_concat (rt_backend (library f))) (Ok a) (map o_data (x :: ts)))).
    - intros H. exact (served_grew _ _ _ _ G (Hu x H)).
    - reflexivity.
    - intros f Ef. rewrite Rt. unfold known. rewrite Ef. f_equal. unfold pack, pack_with. change (rt_unicode (rtm library f o)) with (rt_unicode (library f)). rewrite (proj2 (Hl f)), Ea. reflexivity.
    - intros N. rewrite Rt. unfold known. rewrite N. reflexivity.
    - unfold SpecCrowd.refused. rewrite Rt. reflexivity.
  Qed.
  Lemma unpack_good o x ps p calls g made reg : (forall x, g_use g x -> served fw_of x reg) -> good o (DoUnpack x ps p) calls g made reg (start_unpack U library x ps p).
  Proof.
    intros Hu. unfold start_unpack. apply analyzed_good. intros made' reg' E G.
    assert (Rt : forall fw, right fw calls o (DoUnpack x ps p) = tensors_answer (let* _ := analyze_pattern U p in known fw x (fun f => unpack (rtm library f o) (o_data x) ps p))) by reflexivity.
    destruct (analyze_pattern U p) as [a|e] eqn:Ea; cbn [bind] in Rt; [|cbn; apply fair_right; rewrite Rt; reflexivity].
    apply (ask_right o (DoUnpack x ps p) calls g made' reg' x tensors_answer (fun f => unpack_given (b_shape (rt_backend (library f))) (b_reshape (rt_backend (library f))) (b_slice (rt_backend (library f))) (Ok a) (o_data x) ps)).
    - intros H. exact (served_grew _ _ _ _ G (Hu x H)).
    - reflexivity.
    - intros f Ef. rewrite Rt. unfold known. rewrite Ef. f_equal. unfold unpack, unpack_with. change (rt_unicode (rtm library f o)) with (rt_unicode (library f)). rewrite (proj2 (Hl f)), Ea. reflexivity.
    - intros N. rewrite Rt. unfold known. rewrite N. reflexivity.
    - unfold SpecCrowd.refused. rewrite Rt. reflexivity.
  Qed.

  Lemma make_good o q torch reserved p red id sizes calls g made reg : orders_ok o -> NoDup (map fst sizes) -> opkey_of red id <> None ->
    (forall fw ls, answer_to U fw library lib_einsum o q ls = SpecSession.made torch (let* _ := check_kwargs reserved sizes in make_layer U (fun _ => o) p red sizes) ls) ->
    (forall fw, right fw calls o q = fst (answer_to U fw library lib_einsum o q [])) ->
    good o q calls g made reg (start_make U o torch reserved p red id sizes).
  Proof.
    intros Ho Hn Hk Ha Rt. unfold start_make. specialize (Ha fw_of []). specialize (Rt fw_of). rewrite Ha in Rt.
    destruct (check_kwargs reserved sizes) as [u|e]; cbn [bind] in *; [|cbn; apply fair_right; rewrite Rt; reflexivity].
    destruct (opkey_of red id) as [op|] eqn:Eop; [|contradiction]. apply opkey_of_op in Eop.
    apply prepared_all_dims_good; [exact Ho|]. intros made' reg' r E G F (os & Hos & Em). rewrite Eop in Em.
    pose proof (make_reordered U HU os (fun _ => o) p red sizes sizes Hos (fun _ => Ho) Hn (Permutation_refl _)) as S.
    unfold make_layer at 1 in S. rewrite <- Em in S.
    destruct r as [recs|e]; cbn [bind] in S; destruct (make_layer U (fun _ => o) p red sizes) as [L|e']; cbn [same_outcome bind] in *; try contradiction.
    - cbn [CrowdFacts.good]. split; [intros _; left; rewrite Rt; reflexivity|]. intros s Es. injection Es as <-. exists (torch, L). rewrite Ha. split; [reflexivity|].
      split; [reflexivity|]. split; [apply F; reflexivity|]. exists p. exact S.
    - subst e'. cbn. apply fair_right. rewrite Rt. reflexivity.
  Qed.

  Lemma use_good o k x calls g made reg s l : (forall x, g_use g x -> served fw_of x reg) -> orders_ok o ->
    layer_by fw_of calls k = [l] -> layer_held made s l -> good o (UseLayer k x) calls g made reg (start_use library o s x).
  Proof.
    intros Hu Ho El (E1 & E2 & pattern & E3). destruct l as [torch L]. cbn [fst snd] in *.
    assert (Rt : forall fw, right fw calls o (UseLayer k x) = tensor_answer (known fw x (fun f => call_layer (rtm library f o) L (o_data x)))).
    { intros fw. unfold SpecCrowd.right. rewrite (layer_by_any fw fw_of), El. reflexivity. }
    assert (Ra : asks calls (UseLayer k x) = if torch then None else Some x).
    { unfold SpecCrowd.asks. rewrite (layer_by_any (fun _ => None) fw_of), El. destruct torch; reflexivity. }
    assert (Hs : suitable calls (UseLayer k x) -> (torch = true <-> fw_of (o_type x) = Some Torch)).
    { intros S. apply (S torch L). rewrite El. left. reflexivity. }
    assert (Ec : forall f, call_layer (rtm library f o) L (o_data x) = call_layer (rtm library f o) (mkLayer pattern (sl_red s) (sl_sizes s) (map strip (sl_recipes s))) (o_data x)).
    { intros f. exact (E3 (rtm library f o) (o_data x) (rt_good U HU library Hl f o Ho) (rt_uni U library Hl f o)). }
    unfold start_use. rewrite E1. destruct torch.
    - cbn. split; [|discriminate]. intros S. left. rewrite Rt. unfold known. rewrite (proj1 (Hs S) eq_refl). f_equal. rewrite Ec.
      unfold call_layer. change (rt_framework (rtm library Torch o)) with (rt_framework (library Torch)). rewrite (proj1 (Hl Torch)).
      unfold torch_apply, Layers.recipe_for. cbn [ly_recipes ly_red ly_sizes]. rewrite dict_get_strip.
      destruct (dict_get Nat.eqb (length (shp (o_data x))) (sl_recipes s)) as [[i rec]|]; reflexivity.
    - apply ask_good; [exact (Hu x)| |].
      + intros made' reg' f E G Ef. pose proof (held_extends _ _ _ E E2) as E2'.
        assert (Fin : forall m r v, (f <> Torch -> v = call_layer (rtm library f o) L (o_data x)) -> fair o (UseLayer k x) calls g m r (tensor_answer v) None).
        { intros m r v H. split; [|discriminate]. intros S. left. rewrite Rt. unfold known. rewrite Ef. f_equal. apply H.
          intros ->. assert (false = true) by (apply (Hs S), Ef). discriminate. }
        assert (Ec' : f <> Torch -> call_layer (rtm library f o) L (o_data x) =
            mixin_apply (rtm library f o) (mkLayer pattern (sl_red s) (sl_sizes s) (map strip (sl_recipes s))) (o_data x)).
        { intros Hnt. rewrite Ec. unfold call_layer. change (rt_framework (rtm library f o)) with (rt_framework (library f)). rewrite (proj1 (Hl f)). destruct f; try reflexivity. contradiction. }
        unfold mixin_apply, Layers.recipe_for in Ec'. cbn [ly_recipes ly_red ly_sizes] in Ec'. rewrite dict_get_strip in Ec'.
        destruct (dict_get Nat.eqb (length (shp (o_data x))) (sl_recipes s)) as [[i rec]|] eqn:Ed; cbn [option_map of_option bind snd] in *.
        * apply dict_get_in in Ed as [n Ed]. apply cooking_good; [exact (proj1 (Forall_forall _ _) E2' _ Ed)|]. intros m r _ _. cbn [CrowdFacts.good finish]. apply Fin. intros Hnt.
          rewrite (Ec' Hnt). unfold apply_recipe.
          change (rt_backend (rtm library f o)) with (rt_backend (library f)).
          destruct (reconstruct int_ops rec (b_shape (rt_backend (library f)) (o_data x)) (sl_sizes s)) as [c|e] eqn:Er; [reflexivity|]. destruct e; reflexivity.
        * cbn [CrowdFacts.good finish]. apply Fin. intros Hnt. rewrite (Ec' Hnt). reflexivity.
      + intros made' reg' _ _ Hr. apply (fair_refused _ _ _ _ _ _ _ x); [unfold SpecCrowd.refused; rewrite Rt; reflexivity|exact Ra| |exact Hr].
        intros N. unfold SpecCrowd.refused. rewrite !Rt. unfold known. rewrite N. reflexivity.
  Qed.

  Lemma start_good o q calls g made reg pick t : (forall x, g_use g x -> served fw_of x reg) -> orders_ok o -> decent q ->
    (forall k s, pick k = Some s -> exists l, layer_by fw_of calls k = [l] /\ layer_held made s l) ->
    start U library lib_einsum o q pick = Some t -> good o q calls g made reg t.
  Proof.
    intros Hu Ho Hq Hp E. destruct q as [x p red id sizes|x p|x|x|args|ts p|x ps p|f c|torch p sizes|torch p red id sizes|k x]; cbn [start decent] in *; try (injection E as <-).
    - destruct Hq as [Hn Hk]. apply reduce_good; assumption.
    - assert (Rt : forall fw, right fw calls o (DoParseShape x p) = GotShape (let* _ := parse_expression U true false 0 p in known fw x (fun _ => parse_shape U (map Z.of_nat (shp (o_data x))) p))) by reflexivity.
      destruct (parse_expression U true false 0 p) as [pe|e]; cbn [bind] in Rt; [|cbn; apply fair_right; rewrite Rt; reflexivity].
      apply (ask_right o (DoParseShape x p) calls g made reg x GotShape (fun f => parse_shape U (b_shape (rt_backend (library f)) (o_data x)) p)).
      + exact (Hu x).
      + reflexivity.
      + intros f Ef. rewrite Rt. unfold known. rewrite Ef. unfold rt_backend. rewrite (proj1 (Hl f)). destruct f; reflexivity.
      + intros N. rewrite Rt. unfold known. rewrite N. reflexivity.
      + unfold SpecCrowd.refused. rewrite Rt. reflexivity.
    - apply (ask_right o (DoDirections x) calls g made reg x tensors_answer (fun f => enumerate_directions int_ops (rt_backend (library f)) (o_data x)) (Hu x));
        [reflexivity| | |reflexivity]; [intros f Ef|intros N]; cbn; unfold known; rewrite ?Ef, ?N; reflexivity.
    - apply (ask_right o (DoAsNumpy x) calls g made reg x tensor_answer (fun f => to_numpy f (o_data x)) (Hu x));
        [reflexivity| | |reflexivity]; [intros f Ef|intros N]; cbn; unfold known; rewrite ?Ef, ?N; reflexivity.
    - apply einsum_good, Hu.
    - apply pack_good, Hu.
    - apply unpack_good, Hu.
    - apply (of_rest_good U fw_of g _ (compute (rt library f o) c)).
      + apply begin_good; [apply (rt_good U HU library Hl f o Ho)|apply (rt_uni U library Hl)|exact Hq].
      + intros m r _ _. apply fair_right. reflexivity.
    - apply make_good; auto. discriminate.
    - destruct Hq as [Hn Hk]. apply make_good; auto.
    - destruct (pick k) as [s|] eqn:Ek; [|discriminate]. injection E as <-. destruct (Hp k s Ek) as (l & H1 & H2). eapply use_good; eassumption.
  Qed.
End Calls.
