(** * The order in which reduced axes are listed does not matter *)
From Coq Require Import Permutation.
From Verif Require Import Py Tensor ListFacts TensorFacts Parsing Recipe Ops Backends.

Lemma insert_swap a b l : insert_desc a (insert_desc b l) = insert_desc b (insert_desc a l).
Proof.
  assert (S1 : forall x y l, y <= x -> insert_desc x (y :: l) = x :: y :: l) by (intros x y m H; cbn; rewrite (proj2 (Nat.leb_le y x) H); reflexivity).
  assert (S2 : forall x y l, x < y -> insert_desc x (y :: l) = y :: insert_desc x l) by (intros x y m H; cbn; rewrite (proj2 (Nat.leb_gt y x) H); reflexivity).
  induction l as [|y l IH].
  - change (insert_desc a [b] = insert_desc b [a]). destruct (Nat.lt_trichotomy a b) as [H|[->|H]]; [|reflexivity|].
    + rewrite (S2 a b), (S1 b a) by lia. reflexivity.
    + rewrite (S1 a b), (S2 b a) by lia. reflexivity.
  - destruct (Nat.le_gt_cases y a), (Nat.le_gt_cases y b).
    + rewrite (S1 a y), (S1 b y) by lia. destruct (Nat.lt_trichotomy a b) as [Hab|[->|Hab]]; [|reflexivity|].
      * rewrite (S2 a b), (S1 b a), (S1 a y) by lia. reflexivity.
      * rewrite (S1 a b), (S2 b a), (S1 b y) by lia. reflexivity.
    + rewrite (S1 a y), (S2 b y), (S1 a y), (S2 b a), (S2 b y) by lia. reflexivity.
    + rewrite (S2 a y), (S1 b y), (S1 b y), (S2 a b), (S2 a y) by lia. reflexivity.
    + rewrite (S2 a y), (S2 b y), (S2 a y), (S2 b y) by lia. f_equal. exact IH.
Qed.
Lemma sort_order l l' : Permutation l l' -> sort_desc l = sort_desc l'.
Proof.
  induction 1 as [|x l l' _ IH|x y l|l l' l'' _ IH1 _ IH2]; [reflexivity| | |congruence]; cbn.
  - fold (sort_desc l) (sort_desc l'). rewrite IH. reflexivity.
  - apply insert_swap.
Qed.

Lemma bool_iff (a b : bool) : (a = true <-> b = true) -> a = b.
Proof. destruct a, b; intuition congruence. Qed.
Lemma mem_order x l l' : Permutation l l' -> nat_mem x l = nat_mem x l'.
Proof. intros H. apply bool_iff. rewrite !nat_mem_In. split; apply Permutation_in; [exact H|symmetry; exact H]. Qed.
Lemma nodup_order l l' : Permutation l l' -> nat_nodupb l = nat_nodupb l'.
Proof. intros H. apply bool_iff. rewrite !nat_nodupb_NoDup. split; apply Permutation_NoDup; [exact H|symmetry; exact H]. Qed.
Lemma forallb_order {X} (f : X -> bool) l l' : Permutation l l' -> forallb f l = forallb f l'.
Proof. intros H. apply bool_iff. rewrite !forallb_forall. split; intros G x Hx; apply G; [apply (Permutation_in x (Permutation_sym H))|apply (Permutation_in x H)]; exact Hx. Qed.
Lemma reduce_order {A} red (t : tensor A) l l' : Permutation l l' -> t_reduce red t l = t_reduce red t l'.
Proof.
  intros H. unfold t_reduce. rewrite (nodup_order l l' H), (forallb_order _ l l' H).
  rewrite (map_ext (fun k => nat_mem k l) (fun k => nat_mem k l')); [reflexivity|]. intros k. apply mem_order, H.
Qed.

Lemma listed_order {A} lib red isf num f (x : tensor A) op axes axes' : Permutation axes axes' ->
  b_reduce (backend_of lib red isf num f) x op axes = b_reduce (backend_of lib red isf num f) x op axes'.
Proof.
  intros H. destruct f; cbn [backend_of make_backend b_reduce]; unfold torch_reduce, torch_jit_reduce, oneflow_reduce, paddle_reduce, paddle_own_reduce, joint_reduce, sequential_reduce;
    rewrite ?(sort_order _ _ H), ?(reduce_order _ x _ _ H), ?(Permutation_length H); reflexivity.
Qed.
