(** * C94: programs that build a graph compute what they compute eagerly *)
From Coq Require Import Permutation.
From Verif Require Import Py Tensor SpecGrammar SpecPattern SpecForms Parsing Recipe Ops Backends Api Instances Symbolic Packing SymPacking Einsum.
From Verif Require Import FrontFacts2 ParseFacts GraphProg SpecGraphProg GraphProgFacts.

(** symbols of the declared shapes are made and the program is run on them, once.
    Evaluated on any values of these shapes for which the program succeeds eagerly,
    the nodes give the eager results; the pairs may be given in any order.  Programs
    that fail on symbols fail on all values *)
Theorem C94_program : forall (A : Type) (r : runtime A)
    (lib_einsum : pystr -> list (tensor A) -> result (tensor A)) (others : nat -> list (tensor A) -> result (tensor A))
    (g_einsum : pystr -> list (node (values A) A) -> result (node (values A) A)) (g_others : nat -> list (node (values A) A) -> result (node (values A) A))
    (shapes : list (list (option Z))) (p : list call_on),
  runtime_ok r -> has_graphs (rt_framework r) ->
  (forall s, same_in_graphs (g_einsum s) (lib_einsum s)) -> (forall k, same_in_graphs (g_others k) (others k)) ->
  Forall (buildable (rt_unicode r) (rt_framework r)) p ->
  (exists g, run_calls (graph_calls r g_einsum g_others) p (create_symbols shapes) = Ok g /\
     forall ts pairs m, Forall2 of_shape shapes ts -> Permutation pairs (combine (seq 0 (length ts)) ts) ->
       run_calls (eager_calls r lib_einsum others) p ts = Ok m ->
       Forall2 (fun n t => eval_symbol n pairs = Ok t) (m_tensors g) (m_tensors m)) \/
  (forall ts, Forall2 of_shape shapes ts -> exists x, run_calls (eager_calls r lib_einsum others) p ts = Err x).
Proof. exact @graph_program. Qed.
Print Assumptions C94_program.

(** a symbol has the value it is given, if the value has the declared shape *)
Theorem C94_symbol : forall (A : Type) (k : nat) (shape : list (option Z)) (pairs : list (nat * tensor A)) (t : tensor A),
  NoDup (map fst pairs) ->
  (eval_symbol (create_symbol k shape) pairs = Ok t <-> In (k, t) pairs /\ of_shape shape t).
Proof. exact (fun A k shape pairs t => @symbol_value A k shape pairs t). Qed.
Print Assumptions C94_symbol.

(** ** Cases *)
(** a function of the library that doubles *)
Definition doubled (k : nat) (ts : list (tensor Z)) : result (tensor Z) :=
  match ts with [t] => Ok (mkT (shp t) (map (Z.mul 2) (dat t))) | _ => Err BackendError end.
Definition doubled_node {E} (k : nat) (ns : list (node E Z)) : result (node E Z) :=
  match ns with
  | [n] => Ok (mkN (n_static n) (n_float n) (fun e => let* t := n_run n e in doubled k [t]))
  | _ => Err BackendError
  end.
Example C94_case_doubled : forall E k, same_in_graphs (doubled_node (E := E) k) (doubled k).
Proof.
  intros E k e ns ts t H Hf Ht. destruct H as [|n u ns ts [Hn Hs] [|? ? ? ? ? ?]]; try discriminate. inversion_clear Hf as [|? ? Hf' _].
  injection Ht as <-. eexists. split; [reflexivity|]. split; [|exact Hf']. split; [|exact Hs]. cbn [n_run]. rewrite Hn. reflexivity.
Qed.
Definition no_einsum {T} (s : pystr) (ts : list T) : result T := Err NotImplementedError.
Example C94_case_einsum : forall E s, same_in_graphs (no_einsum (T := node E Z) s) (no_einsum (T := tensor Z) s).
Proof. intros E s e ns ts t _ _ H. discriminate H. Qed.

(** two symbols, of shape (any, 6) and (3,).  The second is copied as often as the
    first has rows; what is packed is unpacked again *)
Definition sample_program : list call_on :=
  [On_parse_shape 0 (lit "b _");
   On_rearrange (One 0) (lit "b (h c) -> h b c") [(lit "h", Given 2)];
   On_repeat (One 1) (lit "c -> b c") [(lit "b", Entry 0 (lit "b"))];
   On_pack [2; 3] (lit "* b c");
   On_other 0 [4];
   On_unpack 5 0 (lit "* b c");
   On_reduce (Many [3; 7]) (lit "k b c -> c k") (lit "sum") [(lit "b", Shape_at 0 0)]].
Definition sample_shapes : list (list (option Z)) := [[None; Some 6]; [Some 3]]%Z.
Definition on_pytensor : runtime Z := runtime_for Pytensor.
Ltac spelled :=
  lazymatch goal with |- written_as _ _ _ ?s _ =>
    exists (lex None s); split; [apply spells_iff; reflexivity|];
    split; [let ts := eval cbv in (lex None s) in change (lex None s) with ts;
            repeat (apply st_word; [first [solve_atom | apply wa_name; right; split; [reflexivity|]; split; [intros c [<- | []]; right; reflexivity|right; split; reflexivity]]|]); apply st_nil
           | split; [cbv; repeat constructor | right; cbv -[In]; solve_NoDup]]
  end.
Example C94_case : exists g,
  Forall (buildable ascii_unicode Pytensor) sample_program /\
  run_calls (graph_calls on_pytensor no_einsum doubled_node) sample_program (create_symbols sample_shapes) = Ok g /\
  forall k, k = 2 \/ k = 1 ->
    Forall2 of_shape sample_shapes [iota [k; 6]; iota [3]] /\
    exists m, run_calls (eager_calls on_pytensor no_einsum doubled) sample_program [iota [k; 6]; iota [3]] = Ok m /\
      mapM (fun n => eval_symbol n [(1, iota [3]); (0, iota [k; 6])]) (m_tensors g) = Ok (m_tensors m) /\
      length (m_tensors m) = 9 /\
      nth_error (m_tensors m) 8 = Some (mkT [3; 2] (if (k =? 2)%nat then [0; 0; 2; 4; 4; 8] else [0; 0; 1; 2; 2; 4])%Z).
Proof.
  eexists. split; [|split; [vm_compute; reflexivity|]].
  - unfold sample_program. repeat (apply Forall_cons; [try exact I|]); try apply Forall_nil.
    + exists [Atom (AName (lit "b")); Atom (AName (lit "_"))]. split; [spelled|].
      repeat (apply Forall_cons; [left; eexists; reflexivity|]). apply Forall_nil.
    + reflexivity.
  - intros k [-> | ->].
    all: split; [vm_compute; repeat (apply Forall2_cons; [repeat (apply Forall2_cons; [auto|]); apply Forall2_nil|]); apply Forall2_nil|].
    all: eexists; split; [vm_compute; reflexivity|]; repeat split; vm_compute; reflexivity.
Qed.
