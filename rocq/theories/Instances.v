(** * A concrete runtime, for the examples that accompany the theorems *)
From Verif Require Import Py Tensor Parsing Recipe Ops Backends SpecSem SpecGrammar SpecPattern SpecOps Api ParseFacts.

(** an interpreter that knows ASCII only *)
Definition ascii_unicode : unicode := {|
  u_alnum := fun c => ascii_letter c || ascii_digit c;
  u_digit := fun c => if ascii_digit c then Some (c - 48)%N else None;
  u_idstart := fun c => ascii_letter c || (c =? c_under)%N;
  u_idcont := fun c => ascii_letter c || ascii_digit c || (c =? c_under)%N;
  u_space := ascii_space
|}.
Lemma ascii_unicode_ok : unicode_ok ascii_unicode.
Proof.
  split; try reflexivity; try (repeat split; reflexivity); intros c d; cbn.
  - unfold ascii_digit. destruct (N.leb_spec 48 c); destruct (N.leb_spec c 57); cbn; try discriminate.
    intros [= <-]. lia.
  - destruct (ascii_digit c); [rewrite orb_true_r; auto|discriminate].
  - unfold ascii_digit, ascii_letter, c_under. intros H.
    destruct (N.leb_spec 48 c); destruct (N.leb_spec c 57); cbn in H; try discriminate.
    destruct (N.leb_spec 65 c); [lia|]. destruct (N.leb_spec 97 c); [lia|]. cbn. apply N.eqb_neq. lia.
Qed.

(** sets iterate in insertion order, or in the opposite order *)
Definition forward : orders := fun _ l => l.
Definition backward : orders := fun _ l => rev l.
Lemma forward_ok : orders_ok forward.
Proof. intros k l. apply Permutation_refl. Qed.
Lemma backward_ok : orders_ok backward.
Proof. intros k l. symmetry. apply Permutation_rev. Qed.

(** integers as elements; minimum and maximum of nothing are errors *)
Definition z_red (s : pystr) (l : list Z) : result Z :=
  if str_eqb s (lit "sum") then Ok (fold_right Z.add 0%Z l)
  else if str_eqb s (lit "prod") then Ok (fold_right Z.mul 1%Z l)
  else match l with
       | [] => Err BackendError
       | v :: l' =>
           if str_eqb s (lit "max") then Ok (fold_right Z.max v l')
           else if str_eqb s (lit "min") then Ok (fold_right Z.min v l')
           else Ok (fold_right Z.add 0%Z l / Z.of_nat (length l))%Z
       end.

Definition runtime_for (f : framework) : runtime Z :=
  mkR Z ascii_unicode forward f true z_red (fun _ => true) Z.of_nat.
Definition numpy_like : runtime Z := runtime_for Numpy.
Definition torch_like : runtime Z := runtime_for Torch.
Lemma runtime_for_ok f : runtime_ok (runtime_for f).
Proof. split; [apply ascii_unicode_ok|apply forward_ok]. Qed.

(** the numbers 0, 1, 2, ... in a tensor of the given shape *)
Definition iota (s : list nat) : tensor Z := mkT s (map Z.of_nat (seq 0 (prodn s))).
Lemma iota_wf s : wf (iota s).
Proof. unfold wf, iota. cbn. rewrite map_length, seq_length. auto. Qed.

(** ** Tactics that show that a concrete pattern reads as a concrete expression *)
Ltac words_of ts :=
  lazymatch ts with
  | TWord ?w :: ?ts' => let ws := words_of ts' in constr:(w :: ws)
  | _ => constr:(@nil pystr)
  end.
Ltac solve_name :=
  apply wa_name; right; split; [reflexivity|];
  split; [let c := fresh in let H := fresh in intros c H; cbn in H; decompose [or] H; subst; try tauto; left; reflexivity
         | left; split; cbn; discriminate].
Ltac solve_atom :=
  first [ exact (wa_dots _ _)
        | solve [solve_name]
        | solve [lazymatch goal with |- word_atom ?U ?au ?w (ANum ?n) =>
            change (ANum n) with (ANum (int_of_str U w)); apply wa_num; [reflexivity | cbv; discriminate] end] ].
Ltac solve_structured :=
  lazymatch goal with
  | |- structured _ _ [] [] => apply st_nil
  | |- structured _ _ (TWord _ :: _) _ => apply st_word; [solve_atom | solve_structured]
  | |- structured ?U ?au (TOpen :: ?ts) _ =>
      let ws := words_of ts in
      refine (st_group U au ws _ _ _ _ _); [repeat (apply Forall2_cons; [solve_atom|]); apply Forall2_nil | solve_structured]
  end.
Ltac solve_NoDup :=
  repeat (apply NoDup_cons; [let H := fresh in intros H; cbn in H; intuition discriminate|]); apply NoDup_nil.
Ltac solve_written :=
  lazymatch goal with |- written_as _ _ _ ?s _ =>
    exists (lex None s); split; [apply spells_iff; reflexivity|];
    split; [let ts := eval cbv in (lex None s) in change (lex None s) with ts; solve_structured
           | split; [cbv; repeat constructor | right; cbv -[In]; solve_NoDup]]
  end.
(** [solve_reads (lit "left") (lit "right")] *)
Ltac solve_reads l r :=
  exists l, r; split; [reflexivity|]; split; unfold written; solve_written.

(** syntax trees of the examples *)
Definition nm (s : String.string) : item := Atom (AName (lit s)).
Arguments nm s%string_scope.
Definition dots3 : item := Atom ADots.
Definition grp (l : list pystr) : item := Group (map AName l).
(** lengths of named axes *)
Fixpoint lens (l : list (pystr * nat)) (a : label) : nat :=
  match l with
  | [] => match a with LNum _ n => Z.to_nat n | _ => 1 end
  | (s, n) :: l' => if label_eqb a (LName s) then n else lens l' a
  end.

Example reads_example : reads ascii_unicode (lit " a (b c)  d1 1 ()... -> (c ... 5)a d1 ")
  [nm "a"; grp [lit "b"; lit "c"]; nm "d1"; Atom (ANum 1); Group []; dots3]
  [Group [AName (lit "c"); ADots; ANum 5]; nm "a"; nm "d1"].
Proof. solve_reads (lit " a (b c)  d1 1 ()... ") (lit " (c ... 5)a d1 "). Qed.

(** ** Tactics for the side conditions of concrete calls *)
Ltac each H :=
  lazymatch type of H with
  | In _ (_ :: _) => destruct H as [H|H]; [|each H]
  | In _ [] => destruct H
  | In _ ?l => let l' := eval cbv in l in change l with l' in H; each H
  end.
Ltac solve_plain := let H := fresh in intros H; each H; discriminate.
Ltac solve_fits :=
  split; [reflexivity|]; split;
  [ let k := fresh in let n := fresh in let H := fresh in intros k n H; each H; try discriminate; inversion H; subst; reflexivity
  | let s := fresh in let z := fresh in let H := fresh in intros s z H; each H; inversion H; subst; reflexivity ].
Ltac solve_member := first [left; reflexivity | right; solve_member].
Ltac solve_incl := let s := fresh in let H := fresh in intros s H; each H; subst s; cbv; solve_member.
Ltac solve_names :=
  let s := fresh in let H := fresh in intros s H; each H; subst s; (split; [discriminate|cbv; solve_member]).
Ltac solve_no_reserved :=
  let s := fresh in let H := fresh in let H' := fresh in intros s H H'; each H; subst s; each H'; discriminate.
Ltac solve_not_grouped :=
  let l := fresh in let H1 := fresh in let H2 := fresh in
  intros [l [H1 H2]]; each H1; try discriminate; inversion H1; subst l; each H2; discriminate.
Ltac solve_gives :=
  split; [ solve_NoDup | solve_names
         | let s := fresh in let H := fresh in let Hn := fresh in intros s H Hn; each H; subst s;
           first [exfalso; apply Hn; reflexivity | cbv; solve_member]
         | let s := fresh in let z := fresh in let H := fresh in intros s z H; each H; inversion H; subst; reflexivity ].
Ltac solve_ident := repeat split; try reflexivity; solve_incl.
(** [solve_call (lit "left") (lit "right")] proves [call_ok] *)
Ltac solve_call l r :=
  split;
  [ solve_reads l r
  | solve_ident
  | first [discriminate | reflexivity]
  | first [discriminate | intros _; solve_not_grouped]
  | first [reflexivity | split; reflexivity]
  | solve_names
  | let g := fresh in let H := fresh in intros g H; each H; subst g; cbv; lia
  | solve_fits
  | let g := fresh in let H := fresh in let Hn := fresh in intros g H Hn; each H; subst g; cbv; try lia; exfalso; apply Hn; reflexivity
  | let H1 := fresh in let H2 := fresh in let H3 := fresh in intros [H1 [H2 H3]]; first [reflexivity | discriminate] ].
