(** * Which backends the tests run on: facts *)
From Coq Require Import Permutation.
From Verif Require Import Py ListFacts Registry SpecRegistry RegistryFacts EinsumFacts2 MixFacts2 MixFacts3 MainFacts2 ComplaintFacts Selection SpecSelection.

Lemma Forall2_In_l {X Y} {P : X -> Y -> Prop} {xs ys x} : Forall2 P xs ys -> In x xs -> exists y, In y ys /\ P x y.
Proof.
  intros H. induction H as [|a b xs ys Hab H IH]; intros Hx; [destruct Hx|]. destruct Hx as [<-|Hx]; [exists b; split; [left; reflexivity|exact Hab]|].
  destruct (IH Hx) as (y & Hy & Hp). exists y. split; [right; exact Hy|exact Hp].
Qed.

Section Facts.
  Context (roots : list ctree).

  Lemma known_In n : str_mem n (framework_names roots) = true <-> known_framework roots n.
  Proof.
    unfold framework_names, known_framework. rewrite str_mem_In, in_map_iff. split.
    - intros (c & <- & H). exists c. split; [|reflexivity]. apply (Permutation_in _ (all_subclasses_perm roots) H).
    - intros (c & H & <-). exists c. split; [reflexivity|]. apply (Permutation_in _ (Permutation_sym (all_subclasses_perm roots)) H).
  Qed.
  Lemma check_known_eq names : check_known roots names = raise_if (existsb (fun n => negb (str_mem n (framework_names roots))) names) RuntimeError.
  Proof. unfold check_known. apply foldM_unit_ok. Qed.
  Lemma check_known_ok names : Forall (known_framework roots) names -> check_known roots names = Ok tt.
  Proof.
    intros H. rewrite check_known_eq. destruct (existsb _ names) eqn:E; [|reflexivity].
    apply existsb_exists in E. destruct E as (n & Hn & E). rewrite Forall_forall in H. rewrite (proj2 (known_In n) (H n Hn)) in E. discriminate.
  Qed.
  Lemma check_known_cases names : (check_known roots names = Ok tt /\ Forall (known_framework roots) names) \/
    (check_known roots names = Err RuntimeError /\ ~ Forall (known_framework roots) names).
  Proof.
    rewrite check_known_eq. destruct (existsb _ names) eqn:E; [right|left]; (split; [reflexivity|]).
    - intros H. apply existsb_exists in E. destruct E as (n & Hn & E). rewrite Forall_forall in H. rewrite (proj2 (known_In n) (H n Hn)) in E. discriminate.
    - apply Forall_forall. intros n Hn. apply known_In. destruct (str_mem n (framework_names roots)) eqn:F; [reflexivity|].
      assert (X : existsb (fun n => negb (str_mem n (framework_names roots))) names = true) by (apply existsb_exists; exists n; rewrite F; split; [assumption|reflexivity]).
      congruence.
  Qed.

  Theorem parse_iff env l : parse_backends roots env = Ok l <->
    dict_get str_eqb envvar env = Some (str_join comma l) /\ l <> [] /\ without_commas l /\ Forall (known_framework roots) l.
  Proof.
    unfold parse_backends. split.
    - destruct (dict_get str_eqb envvar env) as [v|]; [|discriminate].
      destruct (check_known_cases (str_split comma v)) as [[-> Hk]|[-> _]]; cbn [bind]; [|discriminate].
      intros X. injection X as <-. destruct (proj1 (split_char 44%N v (str_split comma v)) eq_refl) as (E & Hn & Hf).
      split; [f_equal; exact E|]. repeat split; assumption.
    - intros (-> & Hn & Hc & Hk).
      assert (X : str_split comma (str_join comma l) = l) by (apply (split_char 44%N); repeat split; assumption).
      rewrite X, (check_known_ok _ Hk). reflexivity.
  Qed.
  Theorem parse_err env e : parse_backends roots env = Err e -> e = RuntimeError.
  Proof.
    unfold parse_backends. destruct (dict_get str_eqb envvar env) as [v|]; [|congruence].
    destruct (check_known_cases (str_split comma v)) as [[-> Hk]|[-> _]]; cbn [bind]; congruence.
  Qed.

  Theorem unparse_iff names k v : unparse_backends roots names = Ok (k, v) <-> Forall (known_framework roots) names /\ k = envvar /\ v = str_join comma names.
  Proof.
    unfold unparse_backends. split.
    - destruct (check_known_cases names) as [[-> Hk]|[-> _]]; cbn [bind]; [|discriminate]. intros X. injection X as <- <-. auto.
    - intros (Hk & -> & ->). rewrite (check_known_ok _ Hk). reflexivity.
  Qed.
  Theorem round_trip names k v env : unparse_backends roots names = Ok (k, v) -> names <> [] -> without_commas names ->
    parse_backends roots (dict_set str_eqb k v env) = Ok names.
  Proof.
    intros H Hn Hc. apply unparse_iff in H. destruct H as (Hk & -> & ->). apply parse_iff. rewrite get_set, str_eqb_refl. auto.
  Qed.
  Theorem round_trip_empty env : ~ known_framework roots [] ->
    exists k v, unparse_backends roots [] = Ok (k, v) /\ parse_backends roots (dict_set str_eqb k v env) = Err RuntimeError.
  Proof.
    intros H. exists envvar, []. split; [reflexivity|]. unfold parse_backends. rewrite get_set, str_eqb_refl.
    change (str_split comma []) with [@nil N]. destruct (check_known_cases [[]]) as [[_ X]|[-> _]]; [|reflexivity].
    inversion X; subst. contradiction.
  Qed.

  Theorem tested_iff env n b : is_backend_tested roots env n = Ok b <->
    known_framework roots n /\ exists l, parse_backends roots env = Ok l /\ (b = true <-> In n l).
  Proof.
    unfold is_backend_tested. split.
    - destruct (str_mem n (framework_names roots)) eqn:E; cbn [negb raise_if bind]; [|discriminate].
      destruct (parse_backends roots env) as [l|]; cbn [bind]; [|discriminate]. intros X. injection X as <-.
      split; [apply known_In; exact E|]. exists l. split; [reflexivity|apply str_mem_In].
    - intros (Hk & l & -> & Hb). rewrite (proj2 (known_In n) Hk). cbn [negb raise_if bind]. f_equal.
      destruct (str_mem n l) eqn:E.
      + symmetry. apply Hb. apply str_mem_In. exact E.
      + destruct b; [|reflexivity]. rewrite (proj2 (str_mem_In n l) (proj1 Hb eq_refl)) in E. discriminate.
  Qed.

  (** the cache *)
  Lemma parse_calls_kept envs l : parse_calls roots envs (Some l) = repeat (Ok l) (length envs).
  Proof. induction envs as [|env envs IH]; [reflexivity|]. cbn [parse_calls cached_parse length repeat]. rewrite IH. reflexivity. Qed.
  Theorem parse_calls_first before env after l : (forall e, In e before -> parse_backends roots e = Err RuntimeError) -> parse_backends roots env = Ok l ->
    parse_calls roots (before ++ env :: after) None = repeat (Err RuntimeError) (length before) ++ repeat (Ok l) (S (length after)).
  Proof.
    intros Hb H. induction before as [|e before IH]; cbn [app parse_calls cached_parse length repeat].
    - rewrite H, parse_calls_kept. reflexivity.
    - rewrite (Hb e (or_introl eq_refl)), IH; [reflexivity|]. intros e' He. apply Hb. right. exact He.
  Qed.

  (** collect_test_backends *)
  Lemma find_class t f : NoDup (map c_name (flat_map classes roots)) -> (exists c, In c (flat_map classes roots) /\ c_name c = t /\ c_framework c = f) ->
    framework_of roots t = Ok f.
  Proof.
    intros Hd (c & Hc & <- & <-). unfold framework_of.
    assert (Hp := all_subclasses_perm roots). apply (Permutation_in _ (Permutation_sym Hp)) in Hc.
    assert (Hd' : NoDup (map c_name (all_subclasses roots))) by (apply (Permutation_NoDup (Permutation_map c_name (Permutation_sym Hp)) Hd)).
    revert Hc Hd'. clear. induction (all_subclasses roots) as [|a l IH]; intros Hc Hd; [destruct Hc|]. cbn [find].
    inversion_clear Hd as [|? ? Ha Hl]. destruct Hc as [<-|Hc]; [rewrite str_eqb_refl; reflexivity|].
    destruct (str_eqb (c_name c) (c_name a)) eqn:E; [|apply IH; assumption].
    apply str_eqb_eq in E. exfalso. apply Ha. rewrite <- E. apply in_map. exact Hc.
  Qed.

  Lemma collect_loop make l (fw : pystr -> pystr) : forall ts made warned, (forall t, In t ts -> framework_of roots t = Ok (fw t)) ->
    let chosen := filter (fun t => str_mem (fw t) l) ts in
    let r := foldM (fun '(made, warned) t =>
           let* f := framework_of roots t in
           if negb (str_mem f l) then Ok (made, warned)
           else match make t with
                | Made => Ok (made ++ [t], warned)
                | Import_fails => Ok (made, warned ++ [t])
                | Raises e => Err e
                end) ts (made, warned) in
    ((forall t, In t chosen -> raises make t = None) -> r = Ok (made ++ filter (is_made make) chosen, warned ++ filter (is_missing make) chosen)) /\
    (forall before t after e, chosen = before ++ t :: after -> (forall t', In t' before -> raises make t' = None) -> raises make t = Some e -> r = Err e).
  Proof.
    induction ts as [|t ts IH]; intros made warned Hf chosen r; subst chosen r.
    - split; [intros _; cbn; rewrite !app_nil_r; reflexivity|]. intros before t after e X. destruct before; discriminate.
    - cbn [foldM filter]. rewrite (Hf t (or_introl eq_refl)). cbn [bind].
      assert (Hf' : forall t, In t ts -> framework_of roots t = Ok (fw t)) by (intros t' Ht; apply Hf; right; exact Ht).
      destruct (str_mem (fw t) l); cbn [negb]; [|exact (IH made warned Hf')].
      destruct (make t) as [| |e] eqn:Em; cbn [bind].
      + destruct (IH (made ++ [t]) warned Hf') as [H1 H2]. split.
        * intros H. rewrite H1; [|intros t' Ht; apply H; right; exact Ht]. cbn [filter]. unfold is_made at 2, is_missing at 2. rewrite Em. rewrite <- app_assoc. reflexivity.
        * intros before u after e X Hb Hu. destruct before as [|b before]; injection X as X1 X2.
          -- subst u. unfold raises in Hu. rewrite Em in Hu. discriminate.
          -- apply (H2 before u after e X2); [|exact Hu]. intros t' Ht. apply Hb. right. exact Ht.
      + destruct (IH made (warned ++ [t]) Hf') as [H1 H2]. split.
        * intros H. rewrite H1; [|intros t' Ht; apply H; right; exact Ht]. cbn [filter]. unfold is_made at 2, is_missing at 2. rewrite Em. rewrite <- app_assoc. reflexivity.
        * intros before u after e X Hb Hu. destruct before as [|b before]; injection X as X1 X2.
          -- subst u. unfold raises in Hu. rewrite Em in Hu. discriminate.
          -- apply (H2 before u after e X2); [|exact Hu]. intros t' Ht. apply Hb. right. exact Ht.
      + split.
        * intros H. specialize (H t (or_introl eq_refl)). unfold raises in H. rewrite Em in H. discriminate.
        * intros before u after e' X Hb Hu. destruct before as [|b before]; injection X as X1 X2.
          -- subst u. unfold raises in Hu. rewrite Em in Hu. congruence.
          -- subst b. specialize (Hb t (or_introl eq_refl)). unfold raises in Hb. rewrite Em in Hb. discriminate.
  Qed.
End Facts.

(** ** main *)
Section Main.
  Context (roots : list ctree) (environ : list (pystr * pystr)) (code : nat -> Z).
  Notation started := (list pystr * list (pystr * pystr))%type.

  Fixpoint exec (plan log : list started) : list started * result unit :=
    match plan with
    | [] => (log, Ok tt)
    | p :: plan => if (code (length log) =? 0)%Z then exec plan (log ++ [p]) else (log ++ [p], Err AssertionError)
    end.
  Lemma exec_executed plan : forall log, exists done, fst (exec plan log) = log ++ done /\
    executed (fun k => code (length log + k)) plan done (snd (exec plan log)).
  Proof.
    induction plan as [|p plan IH]; intros log.
    - exists []. cbn. rewrite app_nil_r. split; [reflexivity|]. left. repeat split. intros k H. cbn in H. lia.
    - cbn [exec]. destruct (Z.eqb_spec (code (length log)) 0) as [E|E].
      + destruct (IH (log ++ [p])) as (done & Hd & He). exists (p :: done). split; [rewrite Hd, <- app_assoc; reflexivity|].
        assert (L : forall k, length (log ++ [p]) + k = length log + S k) by (intros k; rewrite app_length; cbn; lia).
        destruct He as [(-> & -> & Hc)|(k & -> & Hk & -> & Hne & Hj)].
        * left. repeat split. intros [|k] Hk; [rewrite Nat.add_0_r; exact E|]. cbn in Hk. specialize (Hc k ltac:(lia)). rewrite L in Hc. exact Hc.
        * right. exists (S k). repeat split; [cbn; lia| |].
          -- rewrite L in Hne. exact Hne.
          -- intros [|j] H; [rewrite Nat.add_0_r; exact E|]. specialize (Hj j ltac:(lia)). rewrite L in Hj. exact Hj.
      + exists [p]. split; [reflexivity|]. right. exists 0. rewrite Nat.add_0_r. repeat split; [cbn; lia|exact E|lia].
  Qed.
  Lemma exec_app p1 p2 log : exec (p1 ++ p2) log = match exec p1 log with (log, Err e) => (log, Err e) | (log, Ok _) => exec p2 log end.
  Proof. revert log. induction p1 as [|p p1 IH]; intros log; [reflexivity|]. cbn [app exec]. destruct (code (length log) =? 0)%Z; [apply IH|reflexivity]. Qed.

  Lemma must_run_exec cmd env log : must_run environ code cmd env log = exec [(str_split space cmd, fold_left (fun d '(k, v) => dict_set str_eqb k v d) env environ)] log.
  Proof. unfold must_run, run_program. cbn [exec]. destruct (code (length log) =? 0)%Z; reflexivity. Qed.

  Lemma install_exec g words : In (g, words) testable -> exists packages, dict_get str_eqb g installations = Some packages /\
    forall log, pip_install environ code packages log = exec [(installs words, environ)] log.
  Proof.
    intros H. unfold pip_install. unfold testable in H.
    repeat (destruct H as [X|H]; [injection X as <- <-; eexists; (split; [vm_compute; reflexivity|]); intros log; rewrite must_run_exec;
      match goal with |- exec [(str_split space ?c, _)] _ = exec [(?w, _)] _ =>
        assert (X : str_split space c = w) by (vm_compute; reflexivity); rewrite X end; reflexivity|]).
    destruct H.
  Qed.
  Lemma testable_words g : In g (map fst testable) -> exists words, In (g, words) testable.
  Proof. intros H. apply in_map_iff in H. destruct H as ((g', w) & <- & H). exists w. exact H. Qed.

  Lemma install_all_exec gs words log : Forall2 (fun g w => In (g, w) testable) gs words ->
    install_all environ code gs log = exec (map (fun w => (installs w, environ)) words) log.
  Proof.
    intros H. revert log. induction H as [|g w gs ws Hg H IH]; intros log; [reflexivity|]. cbn [install_all map].
    destruct (install_exec g w Hg) as (packages & -> & Hp). rewrite Hp.
    etransitivity; [|symmetry; exact (exec_app [(installs w, environ)] (map (fun w => (installs w, environ)) ws) log)].
    destruct (exec [(installs w, environ)] log) as [log' [[]|e]]; [apply IH|reflexivity].
  Qed.

  Definition synonym (f : pystr) : pystr := match dict_get str_eqb f synonyms with Some g => g | None => f end.
  Lemma asks_synonym f g : asks_for f g -> g = synonym f /\ dict_has str_eqb (synonym f) installations = true /\ In g (map fst testable).
  Proof.
    intros [[H ->]|H].
    - cbn in H. repeat (destruct H as [<-|H]; [vm_compute; repeat split; tauto|]). destruct H.
    - repeat (destruct H as [X|H]; [injection X as <- <-; vm_compute; repeat split; tauto|]). destruct H.
  Qed.
  Lemma synonym_asks f : dict_has str_eqb (synonym f) installations = true -> asks_for f (synonym f).
  Proof.
    intros H. unfold synonym in *. destruct (dict_get str_eqb f synonyms) as [g|] eqn:E.
    - right. destruct (dict_get_In synonyms f) as (v & Hv & Hi).
      { apply dict_has_In. unfold dict_has. rewrite E. reflexivity. }
      rewrite E in Hv. injection Hv as <-. exact Hi.
    - left. split; [|reflexivity]. apply dict_has_In in H. exact H.
  Qed.

  Lemma main_nothing args : filter (fun x => negb (str_eqb x flag)) args = [] -> main roots environ code args = ([], Ok tt).
  Proof. intros H. unfold main. rewrite H. reflexivity. Qed.
  Lemma main_unfold args : filter (fun x => negb (str_eqb x flag)) args <> [] -> main roots environ code args =
    let frameworks := map synonym (filter (fun x => negb (str_eqb x flag)) args) in
        if existsb (fun f => negb (dict_has str_eqb f installations)) frameworks
        then ([], Err RuntimeError)
        else
          match (if str_mem flag args
                 then match pip_install environ code [lit "pytest"] [] with (log, Err e) => (log, Err e) | (log, Ok _) => install_all environ code frameworks log end
                 else ([], Ok tt)) with
          | (log, Err e) => (log, Err e)
          | (log, Ok _) =>
              match unparse_backends roots frameworks with
              | Err e => (log, Err e)
              | Ok (name, value) => must_run environ code (lit "python -m pytest .") [(name, value)] log
              end
          end.
  Proof. unfold main. destruct (filter _ args); [congruence|reflexivity]. Qed.
  Lemma main_unknown args f : In f args -> f <> flag -> (forall g, ~ asks_for f g) -> main roots environ code args = ([], Err RuntimeError).
  Proof.
    intros Hf Hn Ha.
    assert (Hi : In f (filter (fun x => negb (str_eqb x flag)) args)).
    { apply filter_In. split; [exact Hf|]. destruct (str_eqb f flag) eqn:E; [apply str_eqb_eq in E; contradiction|reflexivity]. }
    rewrite main_unfold; [|intros X; rewrite X in Hi; destruct Hi]. cbv zeta.
    assert (X : existsb (fun f => negb (dict_has str_eqb f installations)) (map synonym (filter (fun x => negb (str_eqb x flag)) args)) = true).
    { apply existsb_exists. exists (synonym f). split; [apply in_map; exact Hi|].
      destruct (dict_has str_eqb (synonym f) installations) eqn:E; [|reflexivity]. apply synonym_asks in E. destruct (Ha _ E). }
    rewrite X. reflexivity.
  Qed.

  Definition test_environment (gs : list pystr) := dict_set str_eqb envvar (str_join comma gs) environ.
  Definition test_run (gs : list pystr) : started := ([lit "python"; lit "-m"; lit "pytest"; lit "."], test_environment gs).
  Lemma testable_no_commas g : In g (map fst testable) -> ~ In 44%N g.
  Proof.
    intros H. cbn [testable map fst] in H. repeat (destruct H as [<-|H]; [vm_compute; intuition discriminate|]). destruct H.
  Qed.
  Theorem main_plan args gs words : gs <> [] -> Forall2 asks_for (filter (fun x => negb (str_eqb x flag)) args) gs ->
    Forall2 (fun g w => In (g, w) testable) gs words -> (forall g, In g (map fst testable) -> known_framework roots g) ->
    main roots environ code args = exec ((if str_mem flag args then map (fun w => (installs w, environ)) ([lit "pytest"] :: words) else []) ++ [test_run gs]) [].
  Proof.
    intros Hn Ha Hw Hk.
    assert (Hne : filter (fun x => negb (str_eqb x flag)) args <> []) by (intros X; rewrite X in Ha; inversion Ha; congruence).
    rewrite (main_unfold _ Hne). clear Hne. cbv zeta. revert Ha. generalize (filter (fun x => negb (str_eqb x flag)) args) as asked. intros asked Ha.
    assert (Hs : gs = map synonym asked).
    { clear - Ha. induction Ha as [|f g fs gs' Hfg Ha IH]; [reflexivity|]. cbn [map]. destruct (asks_synonym f g Hfg) as (-> & _). rewrite <- IH. reflexivity. }
    assert (Hx : existsb (fun f => negb (dict_has str_eqb f installations)) (map synonym asked) = false).
    { destruct (existsb _ _) eqn:E; [|reflexivity]. apply existsb_exists in E. destruct E as (x & Hx & E). apply in_map_iff in Hx. destruct Hx as (f & <- & Hf).
      destruct (Forall2_In_l Ha Hf) as (g & Hg & Hfg). destruct (asks_synonym f g Hfg) as (_ & Hd & _). rewrite Hd in E. discriminate. }
    rewrite Hx, <- Hs.
    assert (Hu : unparse_backends roots gs = Ok (envvar, str_join comma gs)).
    { apply unparse_iff. repeat split. apply Forall_forall. intros g Hg. apply Hk. destruct (Forall2_In_l Hw Hg) as (w & _ & H). apply (in_map fst) in H. exact H. }
    rewrite Hu, exec_app.
    assert (Ht : forall log, must_run environ code (lit "python -m pytest .") [(envvar, str_join comma gs)] log = exec [test_run gs] log).
    { intros log. rewrite must_run_exec. unfold test_run, test_environment. cbn [fold_left].
      assert (X : str_split space (lit "python -m pytest .") = [lit "python"; lit "-m"; lit "pytest"; lit "."]) by (vm_compute; reflexivity). rewrite X. reflexivity. }
    destruct (str_mem flag args); [|apply Ht].
    assert (Hp : forall log, pip_install environ code [lit "pytest"] log = exec [(installs [lit "pytest"], environ)] log).
    { intros log. unfold pip_install. rewrite must_run_exec. match goal with |- exec [(str_split space ?c, _)] _ = exec [(?w, _)] _ =>
        assert (X : str_split space c = w) by (vm_compute; reflexivity); rewrite X end. reflexivity. }
    rewrite Hp. cbn [map].
    assert (Hc : forall l, exec ((installs [lit "pytest"], environ) :: l) [] = match exec [(installs [lit "pytest"], environ)] [] with (log, Err e) => (log, Err e) | (log, Ok _) => exec l log end)
      by (intros l; exact (exec_app [(installs [lit "pytest"], environ)] l [])).
    rewrite (Hc (map (fun w => (installs w, environ)) words)). clear Hc.
    destruct (exec [(installs [lit "pytest"], environ)] []) as [log [[]|e]]; [|reflexivity].
    rewrite (install_all_exec gs words log Hw). destruct (exec _ log) as [log' [[]|e]]; [apply Ht|reflexivity].
  Qed.
  Theorem test_run_parses gs : gs <> [] -> (forall g, In g gs -> In g (map fst testable)) -> (forall g, In g (map fst testable) -> known_framework roots g) ->
    parse_backends roots (test_environment gs) = Ok gs.
  Proof.
    intros Hn Hg Hk. apply parse_iff. unfold test_environment. rewrite get_set, str_eqb_refl. repeat split; [exact Hn| |]; apply Forall_forall; intros g H.
    - apply testable_no_commas, Hg, H.
    - apply Hk, Hg, H.
  Qed.
End Main.

Theorem collect_eq : forall (roots : list ctree) (env : list (pystr * pystr)) (make : pystr -> construction) (symbolic layers : bool)
    (l : list pystr) (framework : pystr -> pystr),
  parse_backends roots env = Ok l -> NoDup (map c_name (flat_map classes roots)) ->
  (forall t, In t (backend_types symbolic layers) -> exists c, In c (flat_map classes roots) /\ c_name c = t /\ c_framework c = framework t) ->
  let chosen := filter (fun t => str_mem (framework t) l) (backend_types symbolic layers) in
  let r := collect_test_backends roots env make symbolic layers in
  ((forall t, In t chosen -> raises make t = None) -> r = Ok (filter (is_made make) chosen, filter (is_missing make) chosen)) /\
  (forall before t after e, chosen = before ++ t :: after -> (forall t', In t' before -> raises make t' = None) -> raises make t = Some e -> r = Err e).
Proof.
  intros roots env make symbolic layers l framework Hp Hd Hf. cbv zeta. unfold collect_test_backends. rewrite Hp. cbn [bind].
  exact (collect_loop roots make l framework (backend_types symbolic layers) [] [] (fun t Ht => find_class roots t (framework t) Hd (Hf t Ht))).
Qed.

Theorem main_spec : forall (roots : list ctree) (environ : list (pystr * pystr)) (code : nat -> Z) (args : list pystr),
  let asked := filter (fun x => negb (str_eqb x (lit "--pip-install"))) args in
  (asked = [] -> main roots environ code args = ([], Ok tt)) /\
  (forall f, In f asked -> (forall g, ~ asks_for f g) -> main roots environ code args = ([], Err RuntimeError)) /\
  (forall gs words, asked <> [] -> Forall2 asks_for asked gs -> Forall2 (fun g w => In (g, w) testable) gs words ->
     (forall g, In g (map fst testable) -> known_framework roots g) ->
     exists env,
       executed code
         ((if str_mem (lit "--pip-install") args then map (fun w => (installs w, environ)) ([lit "pytest"] :: words) else []) ++
          [([lit "python"; lit "-m"; lit "pytest"; lit "."], env)])
         (fst (main roots environ code args)) (snd (main roots environ code args)) /\
       parse_backends roots env = Ok gs /\
       (forall k, k <> lit "EINOPS_TEST_BACKENDS" -> dict_get str_eqb k env = dict_get str_eqb k environ)).
Proof.
  intros roots environ code args asked. split; [exact (main_nothing roots environ code args)|]. split.
  - intros f Hf Ha. apply filter_In in Hf. destruct Hf as [Hf Hb]. apply (main_unknown roots environ code args f Hf); [|exact Ha].
    intros ->. change (lit "--pip-install") with flag in Hb. rewrite str_eqb_refl in Hb. discriminate.
  - intros gs words Hn Ha Hw Hk.
    assert (Hg : gs <> []) by (intros ->; inversion Ha; congruence).
    exists (test_environment environ gs). split; [|split].
    + assert (M := main_plan roots environ code args gs words Hg Ha Hw Hk).
      destruct (exec_executed code ((if str_mem flag args then map (fun w => (installs w, environ)) ([lit "pytest"] :: words) else []) ++ [test_run environ gs]) []) as (done & Hd & He).
      rewrite <- M in Hd, He. cbn [app] in Hd. rewrite Hd. exact He.
    + apply test_run_parses; [exact Hg| |exact Hk]. intros g H. destruct (Forall2_In_l Hw H) as (w & _ & X). apply (in_map fst) in X. exact X.
    + intros k H. unfold test_environment. rewrite get_set. destruct (str_eqb k envvar) eqn:E; [apply str_eqb_eq in E; contradiction|reflexivity].
Qed.

(** ** the classes of einops *)
Lemma testable_known : forall g, In g (map fst testable) -> known_framework einops_backends g.
Proof.
  intros g H. apply known_In. apply str_mem_In. unfold testable in H. cbn [map fst] in H.
  repeat (destruct H as [<-|H]; [apply str_mem_In; vm_compute; reflexivity|]). destruct H.
Qed.
Lemma names_distinct : NoDup (map c_name (flat_map classes einops_backends)).
Proof.
  apply (NoDup_count_occ' (list_eq_dec N.eq_dec)). intros x H.
  vm_compute in H. repeat (destruct H as [<-|H]; [vm_compute; reflexivity|]). destruct H.
Qed.
Lemma keras_framework : framework_of einops_backends (lit "TFKerasBackend") = Ok (lit "tensorflow.keras").
Proof. vm_compute. reflexivity. Qed.
Lemma keras_not_testable : ~ In (lit "tensorflow.keras") (map fst testable).
Proof. intros H. apply str_mem_In in H. vm_compute in H. discriminate. Qed.

Lemma asks_dec f : (exists g, asks_for f g) \/ (forall g, ~ asks_for f g).
Proof.
  destruct (dict_has str_eqb (synonym f) installations) eqn:E; [left; exists (synonym f); apply synonym_asks, E|right].
  intros g H. apply asks_synonym in H. destruct H as (_ & H & _). congruence.
Qed.
Lemma all_asked asked : (exists gs words, Forall2 asks_for asked gs /\ Forall2 (fun g w => In (g, w) testable) gs words) \/ exists f, In f asked /\ forall g, ~ asks_for f g.
Proof.
  induction asked as [|f asked IH]; [left; exists [], []; split; constructor|].
  destruct (asks_dec f) as [[g Hg]|Hn]; [|right; exists f; split; [left; reflexivity|exact Hn]].
  destruct IH as [(gs & words & H1 & H2)|(f' & Hf & Hn)]; [left|right; exists f'; split; [right; exact Hf|exact Hn]].
  destruct (asks_synonym f g Hg) as (_ & _ & Ht). destruct (testable_words g Ht) as (w & Hw).
  exists (g :: gs), (w :: words). split; constructor; assumption.
Qed.

Theorem no_keras :
  (forall (environ : list (pystr * pystr)) (code : nat -> Z) (args : list pystr) before env make,
     fst (main einops_backends environ code args) = before ++ [([lit "python"; lit "-m"; lit "pytest"; lit "."], env)] ->
     collect_test_backends einops_backends env make true true = Ok ([], [])) /\
  collect_test_backends einops_backends [(lit "EINOPS_TEST_BACKENDS", lit "tensorflow.keras")] (fun _ => Made) true true = Ok ([lit "TFKerasBackend"], []).
Proof.
  split; [|vm_compute; reflexivity]. intros environ code args before env make H.
  destruct (main_spec einops_backends environ code args) as (H0 & H1 & H2). cbv zeta in *.
  destruct (all_asked (filter (fun x => negb (str_eqb x (lit "--pip-install"))) args)) as [(gs & words & Ha & Hw)|(f & Hf & Hn)].
  2:{ rewrite (H1 f Hf Hn) in H. destruct before; discriminate. }
  destruct (filter (fun x => negb (str_eqb x (lit "--pip-install"))) args) as [|f0 fs0] eqn:Ef.
  { rewrite (H0 eq_refl) in H. destruct before; discriminate. }
  destruct (H2 gs words ltac:(discriminate) Ha Hw testable_known) as (env' & He & Hp & _).
  assert (X : env = env').
  { revert He. rewrite H. set (pips := if str_mem (lit "--pip-install") args then _ else []).
    assert (Hpip : forall x, In x pips -> fst x <> [lit "python"; lit "-m"; lit "pytest"; lit "."]).
    { intros x Hx. subst pips. destruct (str_mem _ args); [|destruct Hx]. apply in_map_iff in Hx. destruct Hx as (w & <- & _). discriminate. }
    intros He.
    assert (Hin : In ([lit "python"; lit "-m"; lit "pytest"; lit "."], env) (pips ++ [([lit "python"; lit "-m"; lit "pytest"; lit "."], env')])).
    { destruct He as [(<- & _)|(k & Hk & _)]; [apply in_or_app; right; left; reflexivity|].
      rewrite <- (firstn_skipn (S k)). apply in_or_app. left. rewrite <- Hk. apply in_or_app. right. left. reflexivity. }
    apply in_app_or in Hin. destruct Hin as [Hin|[Hin|[]]]; [destruct (Hpip _ Hin eq_refl)|injection Hin as ->; reflexivity]. }
  subst env'. unfold collect_test_backends. rewrite Hp. cbn [bind backend_types foldM]. rewrite keras_framework. cbn [bind].
  destruct (str_mem (lit "tensorflow.keras") gs) eqn:E; [|reflexivity]. exfalso. apply str_mem_In in E.
  destruct (Forall2_In_l Hw E) as (w & _ & Y). apply (in_map fst) in Y. exact (keras_not_testable Y).
Qed.

Lemma listed_eq symbolic layers : backend_types symbolic layers = listed_for symbolic layers.
Proof. destruct symbolic, layers; reflexivity. Qed.
