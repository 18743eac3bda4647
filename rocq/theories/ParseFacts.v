(** * The parser implements the grammar *)
From Verif Require Import Py ListFacts Parsing SpecGrammar Compile.

(** ** axes *)
Lemma axis_eqb_eq a b : axis_eqb a b = true <-> a = b.
Proof. unfold axis_eqb; destruct (axis_eq_dec a b); split; congruence. Qed.
Lemma axis_eqb_refl a : axis_eqb a a = true.
Proof. apply axis_eqb_eq; auto. Qed.
Lemma axis_mem_In x l : axis_mem x l = true <-> In x l.
Proof.
  unfold axis_mem. rewrite existsb_exists. split.
  - intros [y [H E]]; apply axis_eqb_eq in E; subst; auto.
  - intros H; exists x; split; auto. apply axis_eqb_refl.
Qed.
Lemma axis_mem_false x l : axis_mem x l = false <-> ~ In x l.
Proof. rewrite <- axis_mem_In. destruct (axis_mem x l); split; congruence. Qed.
Lemma set_add_In x y l : In y (set_add x l) <-> y = x \/ In y l.
Proof.
  unfold set_add. destruct (axis_mem x l) eqn:E.
  - apply axis_mem_In in E. split; [tauto|]. intros [->|H]; auto.
  - rewrite in_app_iff; simpl. split; [intros [H|[H|[]]]; subst; auto|intros [->|H]; auto].
Qed.

(** ** lexing *)
Definition is_sep (c : N) : bool := (c =? c_open)%N || (c =? c_close)%N || (c =? c_space)%N.
Lemma is_sep_spec c : is_sep c = true <-> separator c.
Proof. unfold is_sep, separator. rewrite !orb_true_iff, !N.eqb_eq. tauto. Qed.

Definition tok_of (cur : option pystr) : list token := match cur with Some w => [TWord w] | None => [] end.
Definition cur_add (cur : option pystr) (c : N) : option pystr :=
  Some (match cur with None => [c] | Some w => w ++ [c] end).
Fixpoint lex (cur : option pystr) (s : pystr) : list token :=
  match s with
  | [] => tok_of cur
  | c :: s' =>
      if is_sep c then
        tok_of cur ++ (if (c =? c_open)%N then [TOpen] else if (c =? c_close)%N then [TClose] else []) ++ lex None s'
      else lex (cur_add cur c) s'
  end.

Lemma lex_word cur w s :
  (forall c, In c w -> is_sep c = false) ->
  lex cur (w ++ s) = lex (match w with [] => cur | _ => Some (match cur with None => w | Some v => v ++ w end) end) s.
Proof.
  revert cur; induction w as [|c w IH]; intros cur H; simpl; [reflexivity|].
  rewrite (H c) by (left; auto). rewrite IH by (intros; apply H; right; auto).
  destruct w as [|c' w]; simpl.
  - destruct cur; reflexivity.
  - destruct cur; simpl; rewrite <- ?app_assoc; reflexivity.
Qed.

Lemma spells_lex s ts : spells s ts -> ts = lex None s.
Proof.
  induction 1 as [|s ts _ IH|s ts _ IH|s ts _ IH|w s ts Hne Hw Hs _ IH]; simpl; subst; auto.
  rewrite lex_word.
  2:{ intros c Hc. destruct (is_sep c) eqn:E; auto. apply is_sep_spec in E. exfalso; eapply Hw; eauto. }
  destruct w as [|c w]; [congruence|].
  destruct Hs as [->|[d [s' [-> Hd]]]]; simpl; [reflexivity|].
  apply is_sep_spec in Hd. rewrite Hd. simpl. reflexivity.
Qed.

Lemma lex_spells_gen s : spells s (lex None s) /\
  forall w, w <> [] -> (forall c, In c w -> is_sep c = false) -> spells (w ++ s) (lex (Some w) s).
Proof.
  induction s as [|c s [IH1 IH2]].
  - split; [constructor|]. intros w Hne Hw. simpl. rewrite app_nil_r.
    rewrite <- (app_nil_r w) at 1. constructor; auto; [|constructor].
    intros c Hc E. apply is_sep_spec in E. rewrite Hw in E; auto. discriminate.
  - assert (Hsep : is_sep c = true -> spells (c :: s) ((if (c =? c_open)%N then [TOpen] else if (c =? c_close)%N then [TClose] else []) ++ lex None s)).
    { intros E. destruct (c =? c_open)%N eqn:E1.
      - apply N.eqb_eq in E1; subst. simpl. constructor; auto.
      - destruct (c =? c_close)%N eqn:E2.
        + apply N.eqb_eq in E2; subst. simpl. constructor; auto.
        + unfold is_sep in E. rewrite E1, E2 in E. simpl in E. apply N.eqb_eq in E; subst.
          simpl. constructor; auto. }
    cbn [lex]. destruct (is_sep c) eqn:E.
    + split; [simpl; auto|]. intros w Hne Hw. simpl.
      constructor; auto.
      * intros d Hd Ed. apply is_sep_spec in Ed. rewrite Hw in Ed; auto. discriminate.
      * right; exists c, s; split; auto. apply is_sep_spec; auto.
    + split.
      * apply (IH2 [c]); [discriminate|]. intros d [<-|[]]; auto.
      * intros w Hne Hw. unfold cur_add. replace (w ++ c :: s) with ((w ++ [c]) ++ s) by (rewrite <- app_assoc; reflexivity).
        apply IH2; [destruct w; discriminate|]. intros d Hd. apply in_app_or in Hd as [Hd|[<-|[]]]; auto.
Qed.

Lemma spells_iff s ts : spells s ts <-> ts = lex None s.
Proof. split; [apply spells_lex|]. intros ->. apply lex_spells_gen. Qed.

(** words of the token list are made of the non-separator characters *)
Lemma lex_cur_words cur s w :
  In (TWord w) (lex cur s) -> forall c, In c w -> In c s \/ match cur with Some v => In c v | None => False end.
Proof.
  revert cur; induction s as [|d s IH]; intros cur Hin c Hc; simpl in Hin.
  - destruct cur as [v|]; simpl in Hin; [|contradiction]. destruct Hin as [E|[]]. inversion E; subst; auto.
  - destruct (is_sep d) eqn:E.
    + apply in_app_or in Hin as [Hin|Hin].
      * destruct cur as [v|]; simpl in Hin; [|contradiction]. destruct Hin as [E'|[]]. inversion E'; subst; auto.
      * apply in_app_or in Hin as [Hin|Hin].
        -- destruct (d =? c_open)%N; [destruct Hin as [Hin|[]]; discriminate|].
           destruct (d =? c_close)%N; [destruct Hin as [Hin|[]]; discriminate|contradiction].
        -- destruct (IH None Hin c Hc) as [H|[]]. left; right; auto.
    + destruct (IH _ Hin c Hc) as [H|H]; [left; right; auto|].
      unfold cur_add in H. destruct cur as [v|].
      * apply in_app_or in H as [H|[<-|[]]]; [auto|left; left; auto].
      * destruct H as [<-|[]]. left; left; auto.
Qed.

Lemma lex_chars s cur c : In c s -> is_sep c = false ->
  exists w, In (TWord w) (lex cur s) /\ In c w.
Proof.
  intros Hin E.
  assert (G : forall s cur, (In c s \/ match cur with Some v => In c v | None => False end) ->
                            exists w, In (TWord w) (lex cur s) /\ In c w).
  { clear s cur Hin. induction s as [|d s IH]; intros cur H; simpl.
    - destruct H as [[]|H]. destruct cur as [v|]; [|contradiction]. exists v; split; [left; auto|auto].
    - destruct (is_sep d) eqn:Ed.
      + destruct H as [[->|H]|H].
        * congruence.
        * destruct (IH None (or_introl H)) as [w [Hw Hc]]. exists w; split; auto.
          apply in_or_app; right. apply in_or_app; right; auto.
        * destruct cur as [v|]; [|contradiction]. exists v; split; auto. apply in_or_app; left; left; auto.
      + apply IH. destruct H as [[->|H]|H]; auto.
        * right. unfold cur_add. destruct cur; [apply in_or_app; right; left; auto|left; auto].
        * right. unfold cur_add. destruct cur; [apply in_or_app; left; auto|contradiction]. }
  apply G; auto.
Qed.

Lemma lex_words_nonsep cur s w :
  (match cur with Some v => forall c, In c v -> is_sep c = false | None => True end) ->
  In (TWord w) (lex cur s) -> forall c, In c w -> is_sep c = false.
Proof.
  revert cur; induction s as [|d s IH]; intros cur Hcur Hin c Hc; simpl in Hin.
  - destruct cur as [v|]; simpl in Hin; [|contradiction]. destruct Hin as [E|[]]. inversion E; subst; auto.
  - destruct (is_sep d) eqn:E.
    + apply in_app_or in Hin as [Hin|Hin].
      * destruct cur as [v|]; simpl in Hin; [|contradiction]. destruct Hin as [E'|[]]. inversion E'; subst; auto.
      * apply in_app_or in Hin as [Hin|Hin].
        -- destruct (d =? c_open)%N; [destruct Hin as [Hin|[]]; discriminate|].
           destruct (d =? c_close)%N; [destruct Hin as [Hin|[]]; discriminate|contradiction].
        -- eapply (IH None I); eauto.
    + eapply IH; [|exact Hin|exact Hc]. unfold cur_add. destruct cur as [v|].
      * intros x Hx. apply in_app_or in Hx as [Hx|[<-|[]]]; auto.
      * intros x [<-|[]]; auto.
Qed.

(** ** from words to atoms (after "..." has become U+2026) *)
Definition watom (U : unicode) (au : bool) (w : pystr) : option atom :=
  if str_eqb w ell_name then Some (AName w)
  else if isdecimal U w then (if (1 <=? int_of_str U w)%Z then Some (ANum (int_of_str U w)) else None)
  else if check_axis_name U au w then Some (AName w) else None.

Definition atom_axis (k : nat) (a : atom) : axis :=
  match a with AName s => AxName s | ANum n => AxAnon k n | ADots => ax_ellipsis end.

(** what add_axis_name does when it does not complain *)
Definition do_atom (a : atom) (st : pstate) : pstate :=
  let axs := atom_axes (s_next st) a in
  {| s_ids := fold_left (fun acc x => set_add x acc) axs (s_ids st);
     s_par := if is_ell a then Some (match s_bracket st with None => false | Some _ => true end) else s_par st;
     s_anon := s_anon st || is_big a;
     s_comp := match s_bracket st with
               | None => s_comp st ++ [item_comp (s_next st) (Atom a)]
               | Some _ => s_comp st
               end;
     s_bracket := option_map (fun g => g ++ axs) (s_bracket st);
     s_next := s_next st + nbig [a] |}.

Definition clash (au ad : bool) (a : atom) (st : pstate) : bool :=
  existsb (fun s => axis_mem (AxName s) (s_ids st) && negb (au && str_eqb s [c_under]) && negb ad) (atom_key a).

Definition add_atom (au ad : bool) (a : atom) (st : pstate) : result pstate :=
  if clash au ad a st then Err EinopsError else Ok (do_atom a st).

(** only legal names are in [identifiers] *)
Definition ids_ok (U : unicode) (au : bool) (st : pstate) : Prop :=
  forall s, In (AxName s) (s_ids st) -> watom U au s = Some (AName s).

Lemma add_axis_name_spec U au ad x st :
  ids_ok U au st ->
  add_axis_name U au ad x st = match watom U au x with
                               | None => Err EinopsError
                               | Some a => add_atom au ad a st
                               end.
Proof.
  intros Hok. unfold add_axis_name, watom, add_atom, clash.
  change ellipsis_str with ell_name.
  destruct (str_eqb x ell_name) eqn:Ex.
  - apply str_eqb_eq in Ex; subst x. simpl. rewrite orb_false_r.
    destruct (axis_mem (AxName ell_name) (s_ids st) && negb (au && str_eqb ell_name [c_under]) && negb ad); [reflexivity|].
    unfold do_atom. simpl. rewrite orb_false_r, Nat.add_0_r. destruct st as [ids par anon comp_ [g|] next]; reflexivity.
  - destruct (isdecimal U x) eqn:Ed; simpl.
    + assert (Hn : axis_mem (AxName x) (s_ids st) = false).
      { apply axis_mem_false. intros Hin. apply Hok in Hin. unfold watom in Hin.
        rewrite Ex, Ed in Hin. destruct (1 <=? int_of_str U x)%Z; discriminate. }
      rewrite Hn. simpl.
      destruct (int_of_str U x =? 1)%Z eqn:E1.
      * apply Z.eqb_eq in E1. rewrite E1. simpl. unfold do_atom; simpl.
        rewrite orb_false_r, Nat.add_0_r. destruct st as [ids par anon comp_ [g|] next]; simpl; rewrite ?app_nil_r; reflexivity.
      * destruct (int_of_str U x <=? 1)%Z eqn:E2.
        -- apply Z.eqb_neq in E1. apply Z.leb_le in E2.
           rewrite (proj2 (Z.leb_gt _ _)) by lia. reflexivity.
        -- apply Z.leb_gt in E2. rewrite (proj2 (Z.leb_le _ _)) by lia. simpl.
           unfold do_atom, nbig; simpl. rewrite E1. simpl. rewrite Nat.add_1_r, orb_true_r.
           destruct st as [ids par anon comp_ [g|] next]; reflexivity.
    + destruct (check_axis_name U au x) eqn:Ec; simpl.
      * rewrite orb_false_r.
        destruct (axis_mem (AxName x) (s_ids st) && negb (au && str_eqb x [c_under]) && negb ad); [reflexivity|].
        unfold do_atom; simpl. rewrite Ex. simpl. rewrite orb_false_r, Nat.add_0_r.
        destruct st as [ids par anon comp_ [g|] next]; reflexivity.
      * destruct (axis_mem (AxName x) (s_ids st) && negb (au && str_eqb x [c_under]) && negb ad); reflexivity.
Qed.

Lemma fold_set_add_In axs l y : In y (fold_left (fun acc x => set_add x acc) axs l) <-> In y axs \/ In y l.
Proof.
  revert l; induction axs as [|x axs IH]; intros l; simpl; [tauto|]. rewrite IH, set_add_In.
  split; [intros [H|[H|H]]|intros [[H|H]|H]]; subst; auto.
Qed.

Lemma do_atom_ids_ok U au a st :
  (forall s, In s (atom_key a) -> watom U au s = Some (AName s)) -> ids_ok U au st -> ids_ok U au (do_atom a st).
Proof.
  intros Ha Hok s Hin. unfold do_atom in Hin; simpl in Hin. apply fold_set_add_In in Hin as [Hin|Hin]; [|auto].
  destruct a as [x|n|]; simpl in *.
  - destruct Hin as [E|[]]. inversion E; subst. auto.
  - destruct (n =? 1)%Z; simpl in Hin; [contradiction|]. destruct Hin as [E|[]]; discriminate.
  - destruct Hin as [E|[]]. inversion E; subst. apply Ha. left; reflexivity.
Qed.

Lemma watom_key U au w a : watom U au w = Some a -> forall s, In s (atom_key a) -> watom U au s = Some (AName s).
Proof.
  unfold watom. intros H s Hs.
  destruct (str_eqb w ell_name) eqn:E1.
  - inversion H; subst. simpl in Hs. destruct Hs as [<-|[]]. rewrite E1; auto.
  - destruct (isdecimal U w) eqn:E2.
    + destruct (1 <=? int_of_str U w)%Z; inversion H; subst. simpl in Hs; contradiction.
    + destruct (check_axis_name U au w) eqn:E3; inversion H; subst. simpl in Hs.
      destruct Hs as [<-|[]]. rewrite E1, E2, E3; auto.
Qed.

(** ** running over tokens *)
Definition set_bracket (b : option (list axis)) (st : pstate) : pstate :=
  {| s_ids := s_ids st; s_par := s_par st; s_anon := s_anon st; s_comp := s_comp st; s_bracket := b; s_next := s_next st |}.
Definition close_bracket (g : list axis) (st : pstate) : pstate :=
  {| s_ids := s_ids st; s_par := s_par st; s_anon := s_anon st; s_comp := s_comp st ++ [CGrp g];
     s_bracket := None; s_next := s_next st |}.

Fixpoint run (U : unicode) (au ad : bool) (ts : list token) (st : pstate) : result pstate :=
  match ts with
  | [] => match s_bracket st with Some _ => Err EinopsError | None => Ok st end
  | TOpen :: ts' => match s_bracket st with
                    | Some _ => Err EinopsError
                    | None => run U au ad ts' (set_bracket (Some []) st)
                    end
  | TClose :: ts' => match s_bracket st with
                     | None => Err EinopsError
                     | Some g => run U au ad ts' (close_bracket g st)
                     end
  | TWord w :: ts' => let* st' := add_axis_name U au ad w st in run U au ad ts' st'
  end.

Definition allowed (U : unicode) (c : N) : bool :=
  is_sep c || u_alnum U c || (c =? c_under)%N || (c =? c_ell)%N.

Lemma add_axis_name_err U au ad x st e : add_axis_name U au ad x st = Err e -> e = EinopsError.
Proof.
  unfold add_axis_name. intros H.
  repeat match type of H with context [if ?b then _ else _] => destruct b; try (inversion H; reflexivity) end;
  destruct (s_bracket st); try discriminate; inversion H; reflexivity.
Qed.
Lemma run_err U au ad ts st e : run U au ad ts st = Err e -> e = EinopsError.
Proof.
  revert st; induction ts as [|t ts IH]; intros st; simpl.
  - destruct (s_bracket st); congruence.
  - destruct t as [| |w].
    + destruct (s_bracket st); [congruence|apply IH].
    + destruct (s_bracket st); [apply IH|congruence].
    + intros H. apply bind_Err in H as [H|[st' [_ H]]]; [eapply add_axis_name_err; eauto|eauto].
Qed.
Lemma add_axis_name_bracket U au ad x st st' :
  add_axis_name U au ad x st = Ok st' ->
  (s_bracket st = None <-> s_bracket st' = None).
Proof.
  unfold add_axis_name. intros H.
  destruct (s_bracket st) eqn:E;
  repeat match type of H with context [if ?b then _ else _] => destruct b; try discriminate end;
  inversion H; subst; simpl; try (rewrite E); split; intros; try congruence; auto.
Qed.

Lemma parse_loop_run U au ad cs cur st :
  parse_loop U au ad cs cur st =
  if forallb (allowed U) cs then run U au ad (lex cur cs) st else Err EinopsError.
Proof.
  revert cur st; induction cs as [|c cs IH]; intros cur st.
  - simpl. destruct cur as [w|]; simpl.
    + destruct (s_bracket st) as [g|] eqn:Eb.
      * destruct (add_axis_name U au ad w st) as [st'|e] eqn:E; simpl.
        -- destruct (s_bracket st') eqn:Eb'; [reflexivity|].
           apply add_axis_name_bracket in E. apply E in Eb'. congruence.
        -- f_equal. symmetry. eapply add_axis_name_err; eauto.
      * destruct (add_axis_name U au ad w st) as [st'|e] eqn:E; simpl; [|reflexivity].
        apply add_axis_name_bracket in E. apply E in Eb. rewrite Eb. reflexivity.
    + reflexivity.
  - cbn [parse_loop lex forallb]. fold (is_sep c).
    replace ((c =? c_open)%N || (c =? c_close)%N || (c =? c_space)%N) with (is_sep c) by reflexivity.
    destruct (is_sep c) eqn:Es.
    + replace (allowed U c) with true by (unfold allowed; rewrite Es; reflexivity).
      rewrite andb_true_l.
      assert (Hflush : forall k ts,
         (forall st1, k st1 = if forallb (allowed U) cs then run U au ad ts st1 else Err EinopsError) ->
         (let* st1 := flush U au ad cur st in k st1) =
         if forallb (allowed U) cs then run U au ad (tok_of cur ++ ts) st else Err EinopsError).
      { intros k ts Hk. destruct cur as [w|]; simpl.
        - destruct (add_axis_name U au ad w st) as [st1|e] eqn:E; simpl; [apply Hk|].
          apply add_axis_name_err in E; subst. destruct (forallb (allowed U) cs); reflexivity.
        - apply Hk. }
      apply Hflush. intros st1.
      destruct (c =? c_open)%N; simpl.
      * destruct (s_bracket st1); [destruct (forallb (allowed U) cs); reflexivity|]. rewrite IH. reflexivity.
      * destruct (c =? c_close)%N; simpl.
        -- destruct (s_bracket st1); [|destruct (forallb (allowed U) cs); reflexivity]. rewrite IH. reflexivity.
        -- apply IH.
    + replace (allowed U c) with (u_alnum U c || (c =? c_under)%N || (c =? c_ell)%N)
        by (unfold allowed; rewrite Es; reflexivity).
      destruct (u_alnum U c || (c =? c_under)%N || (c =? c_ell)%N); simpl; [|reflexivity].
      rewrite IH. reflexivity.
Qed.
