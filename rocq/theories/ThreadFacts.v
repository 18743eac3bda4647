(** * get_backend called by several threads: facts *)
From Verif Require Import Py Registry SpecRegistry RegistryFacts Threads SpecThreads.

Section Facts.
  Context {T : Type} (type_of : T -> nat) (accepts : bclass -> T -> bool)
          (build : nat -> bclass -> list pystr -> option exn * list pystr).
  Notation advance := (advance type_of accepts build).
  Notation happen := (happen type_of accepts build).
  Notation after := (after type_of accepts build).
  Notation grows := (grows type_of accepts build).
  Notation get_backend := (get_backend type_of accepts build).
  Implicit Types (s : process T) (p : point T) (st : registry) (b : instance).

  Lemma after_cons h hs s : after (h :: hs) s = after hs (happen s h).
  Proof. reflexivity. Qed.
  Lemma after_app hs hs' s : after (hs ++ hs') s = after hs' (after hs s).
  Proof. apply fold_left_app. Qed.

  Lemma nth_update {A} (l : list A) i (q : A) j : i < length l ->
    nth_error (firstn i l ++ q :: skipn (S i) l) j = if i =? j then Some q else nth_error l j.
  Proof.
    revert i j. induction l as [|a l IH]; intros [|i] [|j] H; cbn in H |- *; try lia; try reflexivity.
    apply IH. lia.
  Qed.
  Lemma in_update {A} (l : list A) i (q a : A) : In a (firstn i l ++ q :: skipn (S i) l) -> a = q \/ In a l.
  Proof.
    intros H. apply in_app_or in H as [H|[H|H]]; [right|left; auto|right].
    - rewrite <- (firstn_skipn i l). apply in_or_app; auto.
    - rewrite <- (firstn_skipn (S i) l). apply in_or_app; auto.
  Qed.
  Lemma update_length {A} (l : list A) i (q : A) : i < length l -> length (firstn i l ++ q :: skipn (S i) l) = length l.
  Proof. revert i. induction l; intros [|i] H; cbn in *; try lia. rewrite IHl; lia. Qed.

  Lemma happen_step s i p : nth_error (calls s) i = Some p ->
    shared (happen s (Step i)) = snd (advance p (shared s)) /\
    forall j, nth_error (calls (happen s (Step i))) j = if i =? j then Some (fst (advance p (shared s))) else nth_error (calls s) j.
  Proof.
    intros E. unfold Threads.happen. rewrite E. destruct (advance p (shared s)) as [p' st'] eqn:A. cbn. split; [auto|].
    intros j. apply nth_update. apply nth_error_Some. congruence.
  Qed.
  Lemma happen_step_none s i : nth_error (calls s) i = None -> happen s (Step i) = s.
  Proof. intros E. unfold Threads.happen. rewrite E. reflexivity. Qed.

  Lemma put_key_in {K V} (eqb : K -> K -> bool) (k : K) (v : V) d k' v' : In (k', v') (put_key eqb k v d) ->
    In (k', v') d \/ (v' = v /\ (k' = k \/ eqb k k' = true)).
  Proof.
    induction d as [|[k0 v0] d IH]; cbn; [intros [E|[]]; injection E as <- <-; auto|].
    destruct (eqb k k0) eqn:Q; intros [E|I].
    - injection E as <- <-. auto.
    - auto.
    - auto.
    - apply IH in I as [I|I]; auto.
  Qed.
  Lemma put_key_new {K V} (eqb : K -> K -> bool) (k : K) (v : V) d : find_key eqb k d = None -> put_key eqb k v d = d ++ [(k, v)].
  Proof.
    induction d as [|[k0 v0] d IH]; cbn; [auto|]. destruct (eqb k k0); [discriminate|]. intros H. rewrite (IH H). reflexivity.
  Qed.
  Lemma put_key_has {K V} (eqb : K -> K -> bool) (k : K) (v : V) d : (forall k1 k2, eqb k1 k2 = true <-> k1 = k2) -> In (k, v) (put_key eqb k v d).
  Proof.
    intros H. induction d as [|[k0 v0] d IH]; cbn; [auto|]. destruct (eqb k k0) eqn:E; [apply H in E as ->; left; auto|right; auto].
  Qed.
  Lemma put_key_keeps {K V} (eqb : K -> K -> bool) (k : K) (v : V) d k' v' : (forall k1 k2, eqb k1 k2 = true <-> k1 = k2) ->
    In (k', v') d -> In (k', v') (put_key eqb k v d) \/ (k' = k /\ In (k', v) (put_key eqb k v d)).
  Proof.
    intros H. induction d as [|[k0 v0] d IH]; cbn; [tauto|]. destruct (eqb k k0) eqn:E; intros [I|I].
    - injection I as E1 E2. subst k0 v0. apply H in E as ->. right. split; [auto|left; auto].
    - left. right. auto.
    - left. left. auto.
    - destruct (IH I) as [J|[E1 J]]; [left; right; auto|right; split; [auto|right; auto]].
  Qed.
  Lemma str_eqb_iff (u v : pystr) : str_eqb u v = true <-> u = v.
  Proof. unfold str_eqb. destruct (str_eq_dec u v); split; congruence. Qed.

  (** ** backends accept *)
  Definition sound (t : nat) (b : instance) : Prop := exists y, type_of y = t /\ accepts (snd b) y = true.
  Definition ok_point p : Prop := match p with Finished x (Ok b) => sound (type_of x) b | _ => True end.
  Definition ok_process s : Prop := (forall t b, In (t, b) (by_type (shared s)) -> sound t b) /\ (forall p, In p (calls s) -> ok_point p).

  Lemma find_key_in {V} t (d : list (nat * V)) v : find_key Nat.eqb t d = Some v -> In (t, v) d.
  Proof.
    induction d as [|[k w] d IH]; cbn; [discriminate|]. destruct (Nat.eqb_spec t k) as [->|].
    - intros E. injection E as ->. auto.
    - auto.
  Qed.
  Lemma construct_keeps c st : by_type (fst (construct build c st)) = by_type st /\ loaded (fst (construct build c st)) = loaded st.
  Proof. unfold construct. destruct (build (clock st) c (modules st)). auto. Qed.

  Lemma put_type_sound x b st t b' : accepts (snd b) x = true -> (forall t b, In (t, b) (by_type st) -> sound t b) ->
    In (t, b') (by_type (store_type type_of x b st)) -> sound t b'.
  Proof.
    intros A H I. cbn in I. apply put_key_in in I as [I|[-> [->|E]]]; [auto|exists x; auto|].
    apply Nat.eqb_eq in E as <-. exists x; auto.
  Qed.
  Lemma advance_ok p st : ok_point p -> (forall t b, In (t, b) (by_type st) -> sound t b) ->
    ok_point (fst (advance p st)) /\ (forall t b, In (t, b) (by_type (snd (advance p st))) -> sound t b).
  Proof.
    intros Hp H. destruct p as [roots x|roots x|roots x [|[fw b] items]|x [|c cs]|x c cs|x c cs|x b cs|x b cs|x r]; cbn [Threads.advance].
    - destruct (find_key _ _ _) as [b|] eqn:E; cbn; [|auto]. split; [|auto]. apply H. apply find_key_in, E.
    - cbn; auto.
    - cbn; auto.
    - destruct (accepts (snd b) x) eqn:A; [|cbn; auto]. cbn [fst snd ok_point]. split; [exists x; auto|]. intros t b'. apply put_type_sound; auto.
    - cbn; auto.
    - destruct (find_key _ _ _); cbn; auto.
    - destruct (str_mem _ _); cbn; auto.
    - pose proof (construct_keeps c st) as [E _]. destruct (construct build c st) as [st' [b|e]]; cbn in *; rewrite E; auto.
    - cbn; auto.
    - destruct (accepts (snd b) x) eqn:A; [|cbn; auto]. cbn [fst snd ok_point]. split; [exists x; auto|]. intros t b'. apply put_type_sound; auto.
    - cbn; auto.
  Qed.
  Lemma happen_ok s h : ok_process s -> ok_process (happen s h).
  Proof.
    intros [H1 H2]. destruct h as [roots x|i|ms].
    - split; [exact H1|]. cbn. intros p I. apply in_app_or in I as [I|[<-|[]]]; [auto|exact Logic.I].
    - destruct (nth_error (calls s) i) as [p|] eqn:E; [|rewrite happen_step_none; [split; auto|auto]].
      destruct (happen_step s i p E) as [Es _]. destruct (advance_ok p (shared s) (H2 p (nth_error_In _ _ E)) H1) as [A1 A2].
      split; [rewrite Es; exact A2|]. intros q I. unfold Threads.happen in I. rewrite E in I. destruct (advance p (shared s)) as [p' st'] eqn:A. cbn in I.
      apply in_update in I as [->|I]; [exact A1|auto].
    - split; [exact H1|exact H2].
  Qed.
  Lemma after_ok hs : forall s, ok_process s -> ok_process (after hs s).
  Proof. induction hs as [|h hs IH]; intros s H; [auto|]. rewrite after_cons. apply IH, happen_ok, H. Qed.
  Lemma fresh_ok : ok_process fresh_process.
  Proof. split; cbn; tauto. Qed.

  Lemma returned_accepts hs x b : In (Finished x (Ok b)) (calls (after hs fresh_process)) -> exists y, type_of y = type_of x /\ accepts (snd b) y = true.
  Proof. intros H. apply (proj2 (after_ok hs fresh_process fresh_ok) _ H). Qed.

  (** ** backends in use stay in use *)
  Definition keyed st : Prop := forall fw b, In (fw, b) (loaded st) -> fw = c_framework (snd b).
  Lemma advance_loaded p st : loaded (snd (advance p st)) = loaded st \/
    exists x b cs, p = Storing x b cs /\ loaded (snd (advance p st)) = put_key str_eqb (c_framework (snd b)) b (loaded st).
  Proof.
    destruct p as [roots x|roots x|roots x [|[fw b] items]|x [|c cs]|x c cs|x c cs|x b cs|x b cs|x r]; cbn [Threads.advance]; auto.
    - destruct (find_key _ _ _); auto.
    - destruct (accepts (snd b) x); auto.
    - destruct (find_key _ _ _); auto.
    - destruct (str_mem _ _); auto.
    - pose proof (construct_keeps c st) as [_ E]. destruct (construct build c st) as [st' [b|e]]; cbn in *; auto.
    - right. exists x, b, cs. auto.
    - destruct (accepts (snd b) x); auto.
  Qed.
  Lemma happen_loaded s h : loaded (shared (happen s h)) = loaded (shared s) \/
    exists b, loaded (shared (happen s h)) = put_key str_eqb (c_framework (snd b)) b (loaded (shared s)).
  Proof.
    destruct h as [roots x|i|ms]; [left; auto| |left; auto].
    destruct (nth_error (calls s) i) as [p|] eqn:E; [|rewrite happen_step_none; auto].
    rewrite (proj1 (happen_step s i p E)). destruct (advance_loaded p (shared s)) as [->|[x [b [cs [_ ->]]]]]; eauto.
  Qed.
  Lemma happen_keyed s h : keyed (shared s) -> keyed (shared (happen s h)).
  Proof.
    intros K fw b I. destruct (happen_loaded s h) as [E|[b0 E]]; rewrite E in I; [auto|].
    apply put_key_in in I as [I|[-> [->|Q]]]; [auto|auto|]. apply str_eqb_iff in Q. auto.
  Qed.
  Lemma after_keyed hs : forall s, keyed (shared s) -> keyed (shared (after hs s)).
  Proof. induction hs as [|h hs IH]; intros s H; [auto|]. rewrite after_cons. apply IH, happen_keyed, H. Qed.
  Lemma fresh_keyed : keyed (shared (@fresh_process T)).
  Proof. intros fw b []. Qed.
  (** a framework that has a backend keeps having one *)
  Lemma happen_has fw s h : has_backend fw (shared s) -> has_backend fw (shared (happen s h)).
  Proof.
    intros [b I]. destruct (happen_loaded s h) as [E|[b0 E]]; unfold has_backend; rewrite E; [eauto|].
    destruct (put_key_keeps str_eqb (c_framework (snd b0)) b0 _ fw b str_eqb_iff I) as [J|[-> J]]; eauto.
  Qed.
  Lemma after_has fw hs : forall s, has_backend fw (shared s) -> has_backend fw (shared (after hs s)).
  Proof. induction hs as [|h hs IH]; intros s H; [auto|]. rewrite after_cons. apply IH, happen_has, H. Qed.

  (** ** a call that starts when an accepting backend is in use *)
  Section Accepting.
    Context (Hfw : forall c c' y, c_framework c = c_framework c' -> accepts c y = accepts c' y).
    Context (x : T).
    Definition accepted st : Prop := exists fw b, In (fw, b) (loaded st) /\ fw = c_framework (snd b) /\ accepts (snd b) x = true.
    Lemma happen_accepted s h : accepted (shared s) -> accepted (shared (happen s h)).
    Proof.
      intros [fw [b [I [-> A]]]]. destruct (happen_loaded s h) as [E|[b0 E]]; unfold accepted; rewrite E; [eauto 6|].
      destruct (put_key_keeps str_eqb (c_framework (snd b0)) b0 _ _ b str_eqb_iff I) as [J|[Q J]]; [eauto 6|].
      exists (c_framework (snd b)), b0. split; [auto|]. split; [auto|]. rewrite <- A. apply Hfw. auto.
    Qed.
    Definition fine p : Prop :=
      match p with
      | AtStart _ y | AtList _ y => y = x
      | Scanning _ y items => y = x /\ exists fw b, In (fw, b) items /\ accepts (snd b) x = true
      | Finished y r => y = x /\ exists b, r = Ok b
      | _ => False
      end.
    Lemma advance_fine p st : accepted st -> fine p -> fine (fst (advance p st)).
    Proof.
      intros H F. destruct p as [roots y|roots y|roots y [|[fw b] items]|y cs|y c cs|y c cs|y b cs|y b cs|y r]; cbn in F |- *; try tauto.
      - destruct (find_key _ _ _); cbn; eauto.
      - destruct H as [fw [b [I [_ A]]]]. split; [auto|]. eauto.
      - destruct F as [_ [? [? [[] _]]]].
      - destruct F as [-> [fw' [b' [[I|I] A]]]].
        + injection I as -> ->. rewrite A. cbn. eauto.
        + destruct (accepts (snd b) x); cbn; eauto.
    Qed.
    Lemma happen_fine s h i p : accepted (shared s) -> nth_error (calls s) i = Some p -> fine p ->
      exists q, nth_error (calls (happen s h)) i = Some q /\ fine q.
    Proof.
      intros H E F. destruct h as [roots y|j|ms].
      - exists p. split; [|auto]. cbn. rewrite nth_error_app1; [auto|]. apply nth_error_Some. congruence.
      - destruct (nth_error (calls s) j) as [q|] eqn:Ej; [|rewrite happen_step_none; eauto].
        destruct (happen_step s j q Ej) as [_ N]. rewrite N. destruct (Nat.eqb_spec j i) as [->|]; [|eauto].
        rewrite E in Ej. injection Ej as <-. eexists. split; [reflexivity|]. apply advance_fine; auto.
      - exists p. auto.
    Qed.
    Lemma after_fine hs : forall s i p, accepted (shared s) -> nth_error (calls s) i = Some p -> fine p ->
      exists q, nth_error (calls (after hs s)) i = Some q /\ fine q.
    Proof.
      induction hs as [|h hs IH]; intros s i p H E F; [eauto|]. rewrite after_cons.
      destruct (happen_fine s h i p H E F) as [q [E' F']]. apply (IH _ i q); auto. apply happen_accepted, H.
    Qed.
    Lemma in_use_suffices hs s roots y r : accepted (shared s) ->
      nth_error (calls (after (Call roots x :: hs) s)) (length (calls s)) = Some (Finished y r) -> y = x /\ exists b, r = Ok b.
    Proof.
      intros H E. rewrite after_cons in E.
      destruct (after_fine hs (happen s (Call roots x)) (length (calls s)) (AtStart roots x)) as [q [E' F]].
      - exact H.
      - cbn. rewrite nth_error_app2, Nat.sub_diag by lia. reflexivity.
      - reflexivity.
      - rewrite E in E'. injection E' as <-. exact F.
    Qed.
  End Accepting.

  (** ** calls that fail *)
  Section Failing.
    Context (Hb : honest build) (ms0 : list pystr) (cs0 : list bclass) (x : T).
    Definition covered st (cs : list bclass) : Prop := forall c, In c cs -> In (c_framework c) ms0 -> has_backend (c_framework c) st.
    Definition on_course p st : Prop :=
      match p with
      | AtStart roots y | AtList roots y | Scanning roots y _ => y = x /\ forall c, In c (all_subclasses roots) <-> In c cs0
      | Looking y cs => y = x /\ exists done, (forall c, In c (done ++ cs) <-> In c cs0) /\ covered st done
      | Checking y c cs | Building y c cs => y = x /\ exists done, (forall c', In c' (done ++ c :: cs) <-> In c' cs0) /\ covered st done
      | Storing y b cs => y = x /\ exists done, (forall c', In c' (done ++ snd b :: cs) <-> In c' cs0) /\ covered st done
      | Testing y b cs => y = x /\ exists done, (forall c', In c' (done ++ cs) <-> In c' cs0) /\ covered st done
      | Finished y (Ok b) => y = x
      | Finished y (Err e) => y = x /\ e = RuntimeError /\ covered st cs0
      end.
    Lemma covered_happen s h cs : covered (shared s) cs -> covered (shared (happen s h)) cs.
    Proof. intros H c I J. apply happen_has, H; auto. Qed.
    Lemma on_course_happen s h p : on_course p (shared s) -> on_course p (shared (happen s h)).
    Proof.
      pose proof (covered_happen s h) as C. destruct p as [| | | | | | | |y [b|e]]; cbn; try tauto.
      all: try (intros [-> [done [H1 H2]]]; split; [auto|]; exists done; split; [auto|apply C, H2]).
      intros [-> [-> H]]. auto.
    Qed.
    Lemma advance_modules p st : incl (modules st) (modules (snd (advance p st))).
    Proof.
      destruct p as [roots y|roots y|roots y [|[fw b] items]|y [|c cs]|y c cs|y c cs|y b cs|y b cs|y r]; cbn [Threads.advance]; try apply incl_refl.
      - destruct (find_key _ _ _); apply incl_refl.
      - destruct (accepts (snd b) y); apply incl_refl.
      - destruct (find_key _ _ _); apply incl_refl.
      - destruct (str_mem _ _); apply incl_refl.
      - unfold construct. destruct (Hb (clock st) c (modules st)) as [E I].
        destruct (build (clock st) c (modules st)) as [f ms]. cbn in E, I. subst. cbn. exact I.
      - destruct (accepts (snd b) y); apply incl_refl.
    Qed.
    Lemma move_done done c (cs : list bclass) c' : In c' ((done ++ [c]) ++ cs) <-> In c' (done ++ c :: cs).
    Proof. rewrite <- app_assoc. reflexivity. Qed.
    (** a step of the call itself *)
    Lemma advance_on_course p st : incl ms0 (modules st) -> on_course p st -> on_course (fst (advance p st)) (snd (advance p st)).
    Proof.
      intros M F. destruct p as [roots y|roots y|roots y [|[fw b] items]|y [|c cs]|y c cs|y c cs|y b cs|y b cs|y r]; cbn [Threads.advance].
      - destruct (find_key _ _ _); cbn in *; tauto.
      - cbn in *; tauto.
      - cbn in *. destruct F as [-> F]. split; [auto|]. exists []. split; [auto|]. intros c [].
      - destruct (accepts (snd b) y); cbn in *; tauto.
      - cbn in *. destruct F as [-> [done [F1 F2]]]. split; [auto|]. split; [auto|]. intros c I. apply F2. apply F1 in I. rewrite app_nil_r in I. auto.
      - cbn [on_course] in F. destruct F as [-> [done [F1 F2]]]. destruct (find_key _ _ _) as [b|] eqn:E; cbn [fst snd on_course].
        + split; [auto|]. exists (done ++ [c]). split; [intros c'; rewrite move_done; auto|].
          intros c' I J. apply in_app_or in I as [I|[<-|[]]]; [auto|]. exists b.
          clear -E. induction (loaded st) as [|[k v] d IH]; cbn in *; [discriminate|]. destruct (str_eqb (c_framework c) k) eqn:Q; [|right; auto].
          apply str_eqb_iff in Q as <-. injection E as ->. auto.
        + split; [auto|]. exists done. auto.
      - cbn [on_course] in F. destruct F as [-> [done [F1 F2]]]. destruct (str_mem _ _) eqn:E; cbn [fst snd on_course].
        + split; [auto|]. exists done. auto.
        + split; [auto|]. exists (done ++ [c]). split; [intros c'; rewrite move_done; auto|].
          intros c' I J. apply in_app_or in I as [I|[<-|[]]]; [auto|]. exfalso. apply M in J.
          unfold str_mem in E. rewrite <- not_true_iff_false in E. apply E. apply existsb_exists. eexists. split; [exact J|]. apply str_eqb_iff. auto.
      - cbn [on_course] in F. destruct F as [-> [done [F1 F2]]]. unfold construct. destruct (Hb (clock st) c (modules st)) as [E _].
        destruct (build (clock st) c (modules st)) as [f ms]. cbn in E. subst. cbn. split; [auto|]. exists done. auto.
      - cbn [fst snd on_course] in *. destruct F as [-> [done [F1 F2]]]. split; [auto|]. exists (done ++ [snd b]). split; [intros c'; rewrite move_done; auto|].
        intros c' I J. apply in_app_or in I as [I|[<-|[]]].
        + destruct (F2 c' I J) as [b' I'].
          destruct (put_key_keeps str_eqb (c_framework (snd b)) b _ _ _ str_eqb_iff I') as [K|[_ K]]; eexists; exact K.
        + exists b. apply put_key_has, str_eqb_iff.
      - cbn [on_course] in F. destruct F as [-> [done [F1 F2]]]. destruct (accepts (snd b) x); cbn [fst snd on_course]; [auto|]. split; [auto|]. exists done. auto.
      - exact F.
    Qed.
    Lemma happen_course s h i p : incl ms0 (modules (shared s)) -> nth_error (calls s) i = Some p -> on_course p (shared s) ->
      exists q, nth_error (calls (happen s h)) i = Some q /\ on_course q (shared (happen s h)).
    Proof.
      intros M E F. destruct h as [roots y|j|ms].
      - exists p. split; [|auto]. cbn. rewrite nth_error_app1; [auto|]. apply nth_error_Some. congruence.
      - destruct (nth_error (calls s) j) as [q|] eqn:Ej; [|rewrite happen_step_none; eauto].
        pose proof (on_course_happen s (Step j) p F) as F'.
        destruct (happen_step s j q Ej) as [Es N]. rewrite N. destruct (Nat.eqb_spec j i) as [->|]; [|eauto].
        rewrite E in Ej. injection Ej as <-. eexists. split; [reflexivity|]. rewrite Es. apply advance_on_course; auto.
      - exists p. split; [auto|]. exact (on_course_happen s (Import ms) p F).
    Qed.
    Lemma happen_modules s h : match h with Import ms => incl (modules (shared s)) ms | _ => True end -> incl (modules (shared s)) (modules (shared (happen s h))).
    Proof.
      intros H. destruct h as [roots y|j|ms]; [apply incl_refl| |exact H].
      destruct (nth_error (calls s) j) as [q|] eqn:Ej; [|rewrite happen_step_none; [apply incl_refl|auto]].
      rewrite (proj1 (happen_step s j q Ej)). apply advance_modules.
    Qed.
    Lemma after_course hs : forall s i p, grows hs s -> incl ms0 (modules (shared s)) -> nth_error (calls s) i = Some p -> on_course p (shared s) ->
      exists q, nth_error (calls (after hs s)) i = Some q /\ on_course q (shared (after hs s)).
    Proof.
      induction hs as [|h hs IH]; intros s i p G M E F; [eauto|]. rewrite after_cons. destruct G as [G1 G2].
      destruct (happen_course s h i p M E F) as [q [E' F']]. apply (IH _ i q); auto.
      eapply incl_tran; [exact M|]. apply happen_modules, G1.
    Qed.
  End Failing.

  Lemma failure s hs roots x y e : honest build -> grows hs (happen s (Call roots x)) ->
    nth_error (calls (after (Call roots x :: hs) s)) (length (calls s)) = Some (Finished y (Err e)) ->
    e = RuntimeError /\ forall c, In c (flat_map classes roots) -> In (c_framework c) (modules (shared s)) ->
      has_backend (c_framework c) (shared (after (Call roots x :: hs) s)).
  Proof.
    intros Hb G E. rewrite after_cons in *.
    destruct (after_course Hb (modules (shared s)) (flat_map classes roots) x hs (happen s (Call roots x)) (length (calls s)) (AtStart roots x)) as [q [E' F]].
    - exact G.
    - apply incl_refl.
    - cbn. rewrite nth_error_app2, Nat.sub_diag by lia. reflexivity.
    - split; [auto|]. intros c. split; apply Permutation_in; [apply all_subclasses_perm|apply Permutation_sym, all_subclasses_perm].
    - rewrite E in E'. injection E' as <-. destruct F as [_ [-> F]]. split; [auto|]. exact F.
  Qed.

  Lemma retry s hs roots x y e c hs2 roots' hs3 z r :
    honest build -> (forall c c' y, c_framework c = c_framework c' -> accepts c y = accepts c' y) ->
    keyed (shared s) -> grows hs (happen s (Call roots x)) ->
    nth_error (calls (after (Call roots x :: hs) s)) (length (calls s)) = Some (Finished y (Err e)) ->
    In c (flat_map classes roots) -> In (c_framework c) (modules (shared s)) -> accepts c x = true ->
    let s' := after hs2 (after (Call roots x :: hs) s) in
    nth_error (calls (after (Call roots' x :: hs3) s')) (length (calls s')) = Some (Finished z r) -> exists b, r = Ok b.
  Proof.
    intros Hb Hfw K G E Ic Im A s' E'.
    destruct (failure s hs roots x y e Hb G E) as [_ F]. specialize (F c Ic Im). apply (after_has _ hs2) in F.
    apply (in_use_suffices Hfw x hs3 s' roots' z r); [|exact E'].
    destruct F as [b I]. exists (c_framework c), b. split; [exact I|].
    assert (Q : c_framework c = c_framework (snd b)) by (apply (after_keyed hs2 _ (after_keyed (Call roots x :: hs) s K)) in I; exact I).
    split; [exact Q|]. rewrite <- A. apply Hfw. auto.
  Qed.

  (** ** one call without interruption is the sequential function *)
  Definition alone p st p' st' : Prop := exists n, Nat.iter n (fun ps => advance (fst ps) (snd ps)) (p, st) = (p', st').
  Lemma alone_refl p st : alone p st p st.
  Proof. exists 0. reflexivity. Qed.
  Lemma iter_shift {X} (f : X -> X) n a : Nat.iter (S n) f a = Nat.iter n f (f a).
  Proof. induction n as [|n IH]; [reflexivity|]. change (f (Nat.iter (S n) f a) = f (Nat.iter n f (f a))). rewrite IH. auto. Qed.
  Lemma alone_step p st p1 st1 p' st' : advance p st = (p1, st1) -> alone p1 st1 p' st' -> alone p st p' st'.
  Proof. intros E [n H]. exists (S n). rewrite iter_shift. cbn [fst snd]. rewrite E. exact H. Qed.

  Lemma alone_classes cs x : forall st, find_key Nat.eqb (type_of x) (by_type st) = None ->
    alone (Looking x cs) st (Finished x (snd (try_classes type_of accepts build cs x st))) (fst (try_classes type_of accepts build cs x st)).
  Proof.
    induction cs as [|c cs IH]; intros st N.
    - eapply alone_step; [reflexivity|]. apply alone_refl.
    - cbn [try_classes]. destruct (find_key str_eqb (c_framework c) (loaded st)) as [b|] eqn:E1.
      { eapply alone_step; [cbn; rewrite E1; reflexivity|]. apply IH, N. }
      eapply alone_step; [cbn; rewrite E1; reflexivity|]. destruct (str_mem (c_framework c) (modules st)) eqn:E2.
      2:{ eapply alone_step; [cbn; rewrite E2; reflexivity|]. apply IH, N. }
      eapply alone_step; [cbn; rewrite E2; reflexivity|].
      pose proof (construct_keeps c st) as [K1 K2].
      assert (K3 : forall b, snd (construct build c st) = Ok b -> snd b = c).
      { unfold construct. destruct (build (clock st) c (modules st)) as [[e|] ms]; cbn; intros b Eb; [discriminate|injection Eb as <-; reflexivity]. }
      destruct (construct build c st) as [st1 [b|e]] eqn:E3; cbn in K1, K2, K3.
      2:{ eapply alone_step; [cbn; rewrite E3; reflexivity|]. apply alone_refl. }
      specialize (K3 b eq_refl).
      eapply alone_step; [cbn; rewrite E3; reflexivity|]. eapply alone_step; [cbn; reflexivity|].
      assert (S1 : store_loaded b st1 = set_loaded (c_framework c) b st1).
      { unfold store_loaded, set_loaded. rewrite K3, put_key_new; [reflexivity|]. rewrite K2. exact E1. }
      rewrite S1. destruct (accepts (snd b) x) eqn:E4.
      + eapply alone_step; [cbn; rewrite E4; reflexivity|].
        assert (S2 : store_type type_of x b (set_loaded (c_framework c) b st1) = set_type (type_of x) b (set_loaded (c_framework c) b st1)).
        { unfold store_type, set_type, set_loaded. cbn. rewrite put_key_new; [reflexivity|]. rewrite K1. exact N. }
        rewrite S2. apply alone_refl.
      + eapply alone_step; [cbn; rewrite E4; reflexivity|]. apply IH. cbn. rewrite K1. exact N.
  Qed.

  Lemma alone_scan roots x st : find_key Nat.eqb (type_of x) (by_type st) = None -> forall items,
    alone (Scanning roots x items) st
      (Finished x (snd (match find (fun fb => accepts (snd (snd fb)) x) items with
                        | Some (_, b) => (set_type (type_of x) b st, Ok b)
                        | None => try_classes type_of accepts build (all_subclasses roots) x st end)))
      (fst (match find (fun fb => accepts (snd (snd fb)) x) items with
            | Some (_, b) => (set_type (type_of x) b st, Ok b)
            | None => try_classes type_of accepts build (all_subclasses roots) x st end)).
  Proof.
    intros N. induction items as [|[fw b] items IH]; cbn [find].
    - eapply alone_step; [reflexivity|]. apply alone_classes, N.
    - cbn [snd]. destruct (accepts (snd b) x) eqn:A; (eapply alone_step; [cbn; rewrite A; reflexivity|]); [|exact IH].
      assert (S2 : store_type type_of x b st = set_type (type_of x) b st).
      { unfold store_type, set_type. rewrite put_key_new; [reflexivity|exact N]. }
      rewrite S2. apply alone_refl.
  Qed.

  Lemma alone_get roots x st : alone (AtStart roots x) st (Finished x (snd (get_backend roots x st))) (fst (get_backend roots x st)).
  Proof.
    unfold Registry.get_backend. destruct (find_key Nat.eqb (type_of x) (by_type st)) as [b|] eqn:N.
    - eapply alone_step; [cbn; rewrite N; reflexivity|]. apply alone_refl.
    - eapply alone_step; [cbn; rewrite N; reflexivity|]. eapply alone_step; [reflexivity|]. apply alone_scan, N.
  Qed.

  Lemma iter_happen n : forall s i p, nth_error (calls s) i = Some p ->
    shared (after (repeat (Step i) n) s) = snd (Nat.iter n (fun ps => advance (fst ps) (snd ps)) (p, shared s)) /\
    forall j, nth_error (calls (after (repeat (Step i) n) s)) j =
              if i =? j then Some (fst (Nat.iter n (fun ps => advance (fst ps) (snd ps)) (p, shared s))) else nth_error (calls s) j.
  Proof.
    induction n as [|n IH]; intros s i p E.
    - cbn. split; [auto|]. intros j. destruct (Nat.eqb_spec i j) as [<-|]; auto.
    - cbn [repeat]. rewrite after_cons. destruct (happen_step s i p E) as [Es N].
      assert (E' : nth_error (calls (happen s (Step i))) i = Some (fst (advance p (shared s)))) by (rewrite N, Nat.eqb_refl; auto).
      destruct (IH _ i _ E') as [I1 I2]. rewrite iter_shift. cbn [fst snd].
      rewrite Es in I1, I2. rewrite <- surjective_pairing in I1, I2. rewrite I1. split; [auto|]. intros j. rewrite I2, N. destruct (i =? j); auto.
  Qed.

  Lemma undisturbed s roots x : exists n,
    let s' := after (Call roots x :: repeat (Step (length (calls s))) n) s in
    shared s' = fst (get_backend roots x (shared s)) /\
    nth_error (calls s') (length (calls s)) = Some (Finished x (snd (get_backend roots x (shared s)))).
  Proof.
    destruct (alone_get roots x (shared s)) as [n H]. exists n. cbn zeta. rewrite after_cons.
    assert (E : nth_error (calls (happen s (Call roots x))) (length (calls s)) = Some (AtStart roots x)).
    { cbn. rewrite nth_error_app2, Nat.sub_diag by lia. reflexivity. }
    destruct (iter_happen n _ _ _ E) as [I1 I2]. rewrite I1, I2, Nat.eqb_refl. cbn [shared Threads.happen]. rewrite H. auto.
  Qed.

  (** ** constructors are called for imported frameworks *)
  Definition imported_point st p : Prop := match p with Building _ c _ => In (c_framework c) (modules st) | _ => True end.
  Definition imported_process s : Prop :=
    (forall p, In p (calls s) -> imported_point (shared s) p) /\ (forall a, In a (attempts (shared s)) -> In (c_framework (at_class a)) (at_modules a)).
  Lemma str_mem_in u l : str_mem u l = true -> In u l.
  Proof. unfold str_mem. intros H. apply existsb_exists in H as [v [I E]]. apply str_eqb_iff in E as ->. auto. Qed.
  Lemma advance_imported p st : imported_point st p -> (forall a, In a (attempts st) -> In (c_framework (at_class a)) (at_modules a)) ->
    imported_point (snd (advance p st)) (fst (advance p st)) /\
    forall a, In a (attempts (snd (advance p st))) -> In (c_framework (at_class a)) (at_modules a).
  Proof.
    intros F H. destruct p as [roots y|roots y|roots y [|[fw b] items]|y [|c cs]|y c cs|y c cs|y b cs|y b cs|y r]; cbn [Threads.advance]; try (cbn; tauto).
    - destruct (find_key _ _ _); cbn; auto.
    - destruct (accepts (snd b) y); cbn; auto.
    - destruct (find_key _ _ _); cbn; auto.
    - destruct (str_mem _ _) eqn:E; cbn; [|auto]. split; [apply str_mem_in, E|auto].
    - cbn in F. unfold construct. destruct (build (clock st) c (modules st)) as [[e|] ms]; cbn; (split; [auto|]);
        intros a I; apply in_app_or in I as [I|[<-|[]]]; auto.
    - destruct (accepts (snd b) y); cbn; auto.
  Qed.
  Lemma imported_point_incl st st' p : incl (modules st) (modules st') -> imported_point st p -> imported_point st' p.
  Proof. destruct p; cbn; auto. Qed.
  Lemma happen_imported s h : honest build -> match h with Import ms => incl (modules (shared s)) ms | _ => True end ->
    imported_process s -> imported_process (happen s h).
  Proof.
    intros Hb G [H1 H2]. pose proof (happen_modules Hb s h G) as M. destruct h as [roots x|i|ms].
    - split; [|exact H2]. cbn. intros p I. apply in_app_or in I as [I|[<-|[]]]; [apply H1, I|exact Logic.I].
    - destruct (nth_error (calls s) i) as [p|] eqn:E; [|rewrite happen_step_none; [split; auto|auto]].
      destruct (happen_step s i p E) as [Es _]. destruct (advance_imported p (shared s) (H1 p (nth_error_In _ _ E)) H2) as [A1 A2].
      split; [|rewrite Es; exact A2]. intros q I.
      assert (J : q = fst (advance p (shared s)) \/ In q (calls s)).
      { unfold Threads.happen in I. rewrite E in I. destruct (advance p (shared s)) as [p' st'] eqn:A. cbn in I. apply in_update in I. exact I. }
      destruct J as [->|J]; [rewrite Es; exact A1|]. exact (imported_point_incl _ _ _ M (H1 q J)).
    - split; [|exact H2]. intros p I. exact (imported_point_incl _ _ _ M (H1 p I)).
  Qed.
  Lemma after_imported hs : honest build -> forall s, grows hs s -> imported_process s -> imported_process (after hs s).
  Proof.
    intros Hb. induction hs as [|h hs IH]; intros s G H; [auto|]. rewrite after_cons. destruct G as [G1 G2].
    apply IH; [exact G2|]. apply happen_imported; auto.
  Qed.
  Lemma threads_imported hs a : honest build -> grows hs fresh_process ->
    In a (attempts (shared (after hs fresh_process))) -> In (c_framework (at_class a)) (at_modules a).
  Proof. intros Hb G. apply (after_imported hs Hb fresh_process G). split; cbn; tauto. Qed.

  (** ** as in the statements *)
  Lemma returned hs i b x : nth_error (calls (after hs fresh_process)) i = Some (Finished x (Ok b)) ->
    exists y, type_of y = type_of x /\ accepts (snd b) y = true.
  Proof. intros E. apply (returned_accepts hs). eapply nth_error_In, E. Qed.
  Lemma one_framework hs i j x y b c :
    (forall c c' u v, type_of u = type_of v -> accepts c u = true -> accepts c' v = true -> c_framework c = c_framework c') ->
    nth_error (calls (after hs fresh_process)) i = Some (Finished x (Ok b)) ->
    nth_error (calls (after hs fresh_process)) j = Some (Finished y (Ok c)) -> type_of x = type_of y ->
    c_framework (snd b) = c_framework (snd c).
  Proof.
    intros H E1 E2 Et. destruct (returned _ _ _ _ E1) as [u [U1 U2]]. destruct (returned _ _ _ _ E2) as [v [V1 V2]].
    apply (H _ _ u v); auto. congruence.
  Qed.
  Lemma in_use hs hs' roots x r : (forall c c' y, c_framework c = c_framework c' -> accepts c y = accepts c' y) ->
    let s := after hs fresh_process in
    (exists fb, In fb (loaded (shared s)) /\ accepts (snd (snd fb)) x = true) ->
    ended (after (Call roots x :: hs') s) (length (calls s)) r -> exists b, r = Ok b.
  Proof.
    intros Hfw s [[fw b] [I A]] [y E]. apply (in_use_suffices Hfw x hs' s roots y r); [|exact E].
    exists fw, b. split; [auto|]. split; [|auto]. apply (after_keyed hs fresh_process fresh_keyed) in I. auto.
  Qed.
  Lemma known_type hs s roots x r : In (type_of x) (map fst (by_type (shared s))) ->
    ended (after (Call roots x :: hs) s) (length (calls s)) r -> exists b, r = Ok b.
  Proof.
    intros K [y E].
    set (known := fun st : registry => In (type_of x) (map fst (by_type st))).
    set (good := fun p : point T => match p with AtStart _ y => y = x | Finished _ (Ok _) => True | _ => False end).
    assert (P : forall p st, known st -> known (snd (advance p st))).
    { assert (Q : forall x' b (d : list (nat * instance)) t, In t (map fst d) -> In t (map fst (put_key Nat.eqb x' b d))).
      { clear. intros x' b d t. induction d as [|[k v] d IH]; cbn; [tauto|]. destruct (x' =? k); cbn; tauto. }
      intros p st H. destruct p as [roots' z|roots' z|roots' z [|[fw b] items]|z [|c cs]|z c cs|z c cs|z b cs|z b cs|z r']; cbn [Threads.advance]; auto.
      - destruct (find_key _ _ _); auto.
      - destruct (accepts (snd b) z); [apply Q, H|auto].
      - destruct (find_key _ _ _); auto.
      - destruct (str_mem _ _); auto.
      - pose proof (construct_keeps c st) as [E1 _]. destruct (construct build c st) as [st' [b|e]]; cbn in *; unfold known; rewrite E1; auto.
      - destruct (accepts (snd b) z); [apply Q, H|auto]. }
    assert (R : forall p st, known st -> good p -> good (fst (advance p st))).
    { intros p st H G. destruct p as [roots' z| | | | | | | |z r']; cbn in G |- *; try tauto. subst z.
      destruct (find_key Nat.eqb (type_of x) (by_type st)) eqn:F; [cbn; auto|]. exfalso. unfold known in H.
      induction (by_type st) as [|[k v] d IH]; cbn in *; [tauto|]. destruct (Nat.eqb_spec (type_of x) k); [discriminate|]. destruct H; [congruence|auto]. }
    assert (S : forall hs s i p, known (shared s) -> nth_error (calls s) i = Some p -> good p -> exists q, nth_error (calls (after hs s)) i = Some q /\ good q).
    { clear -P R. induction hs as [|h hs IH]; intros s i p H E G; [eauto|]. rewrite after_cons. destruct h as [roots' z|j|ms].
      - apply (IH _ i p); [exact H| |exact G]. cbn. rewrite nth_error_app1; [auto|]. apply nth_error_Some. congruence.
      - destruct (nth_error (calls s) j) as [q|] eqn:Ej; [|rewrite happen_step_none; eauto].
        destruct (happen_step s j q Ej) as [Es N]. assert (H' : known (shared (happen s (Step j)))) by (rewrite Es; apply P, H).
        destruct (Nat.eq_dec j i) as [->|D].
        + apply (IH _ i (fst (advance q (shared s)))); [exact H'|rewrite N, Nat.eqb_refl; auto|]. rewrite E in Ej. injection Ej as <-. apply R; auto.
        + apply (IH _ i p); [exact H'| |exact G]. rewrite N. apply Nat.eqb_neq in D. rewrite D. auto.
      - apply (IH _ i p); auto. }
    destruct (S hs (happen s (Call roots x)) (length (calls s)) (AtStart roots x)) as [q [E' G]].
    - exact K.
    - cbn. rewrite nth_error_app2, Nat.sub_diag by lia. reflexivity.
    - reflexivity.
    - rewrite after_cons, E' in E. injection E as ->. destruct r as [b|e]; [eauto|destruct G].
  Qed.
  Lemma failed hs hs' roots x e : honest build ->
    let s := after hs fresh_process in grows hs' (happen s (Call roots x)) ->
    ended (after (Call roots x :: hs') s) (length (calls s)) (Err e) ->
    e = RuntimeError /\ forall c, In c (flat_map classes roots) -> In (c_framework c) (modules (shared s)) ->
      has_backend (c_framework c) (shared (after (Call roots x :: hs') s)).
  Proof. intros Hb s G [y E]. apply (failure s hs' roots x y e Hb G E). Qed.
  Lemma second_try hs hs' roots x e c hs2 roots' hs3 r : honest build ->
    (forall c c' y, c_framework c = c_framework c' -> accepts c y = accepts c' y) ->
    let s := after hs fresh_process in grows hs' (happen s (Call roots x)) ->
    ended (after (Call roots x :: hs') s) (length (calls s)) (Err e) ->
    In c (flat_map classes roots) -> In (c_framework c) (modules (shared s)) -> accepts c x = true ->
    let s' := after hs2 (after (Call roots x :: hs') s) in
    ended (after (Call roots' x :: hs3) s') (length (calls s')) r -> exists b, r = Ok b.
  Proof.
    intros Hb Hfw s G [y E] Ic Im A s' [z E'].
    apply (retry s hs' roots x y e c hs2 roots' hs3 z r Hb Hfw); auto. apply after_keyed, fresh_keyed.
  Qed.
End Facts.
