(** * Packing and unpacking with a named axis of length 0: C26, C27, C103, C104 *)
From Verif Require Import Py Tensor SpecSem SpecGrammar SpecBatch SpecBatches SpecPacking Parsing Recipe Ops Backends Api Packing
  BatchFacts PackFacts Instances PropPacking PropBatches SpecSelect SpecChunks SpecEmpty PackEmpty PackChunksAll.

(** ** C26: pack never returns when a named axis of some tensor has length 0 *)
Theorem C26_pack_empty : forall (A : Type) (r : runtime A) (ts : list (tensor A)) (p : pystr) (before after : list pystr)
    (b a : list nat) (t : tensor A) (m : list nat),
  runtime_ok r -> pack_pattern (rt_unicode r) p before after -> Forall wf ts ->
  (forall t, In t ts -> length before + length after <= length (shp t)) ->
  In t ts -> shp t = b ++ m ++ a -> length b = length before -> length a = length after -> prodn (b ++ a) = 0 ->
  pack r ts p = Err BackendError.
Proof. exact (fun A r ts p before after b a t m Hr => pack_zero r Hr ts p before after b a t m). Qed.
Print Assumptions C26_pack_empty.

Example C26_pack_empty_case :
  let ts := [iota [2; 2; 3]; iota [2; 0]] in
  Forall wf ts /\ (forall t, In t ts -> 2 <= length (shp t)) /\ shp (iota [2; 0]) = [2] ++ [] ++ [0] /\ prodn ([2] ++ [0]) = 0 /\
  pack numpy_like ts ex_pattern = Err BackendError.
Proof.
  cbv zeta. split; [repeat constructor; apply iota_wf|]. split; [intros t [<-|[<-|[]]]; cbn; lia|]. repeat split; vm_compute; reflexivity.
Qed.

(** ** C27: what unpack returns when a named axis has length 0: empty tensors of the requested
    shapes, whatever the length of the packed axis; a negative number in a shape is refused *)
Theorem C27_unpack_empty : forall (A : Type) (r : runtime A) (x : tensor A) (ps : list (list Z)) (p : pystr) (before after : list pystr)
    (b : list nat) (n : nat) (a : list nat),
  runtime_ok r -> pack_pattern (rt_unicode r) p before after ->
  shp x = b ++ [n] ++ a -> length b = length before -> length a = length after -> wf x ->
  prodn (b ++ a) = 0 -> length (filter is_open ps) <= 1 ->
  (Forall closed_shape ps -> unpack r x ps p = Ok (map (fun q => mkT (b ++ map Z.to_nat q ++ a) []) ps)) /\
  (~ Forall closed_shape ps -> unpack r x ps p = Err RuntimeError).
Proof. exact (fun A r x ps p before after b n a Hr => unpack_zero r Hr x ps p before after b n a). Qed.
Print Assumptions C27_unpack_empty.

(** the shapes need not add up to the 5 of the packed axis, and a -1 that could be inferred is refused *)
Example C27_unpack_empty_case :
  let x := mkT [0; 5; 3] (@nil Z) in
  wf x /\ prodn ([0] ++ [3]) = 0 /\
  unpack numpy_like x [[2]; [3]]%Z ex_pattern = Ok [mkT [0; 2; 3] []; mkT [0; 3; 3] []] /\
  unpack numpy_like x [[2; 7]; []]%Z ex_pattern = Ok [mkT [0; 2; 7; 3] []; mkT [0; 3] []] /\
  unpack numpy_like x [[2]; [-1]]%Z ex_pattern = Err RuntimeError /\
  unpack numpy_like (iota [1; 5; 3]) [[2; 7]; []]%Z ex_pattern = Err RuntimeError.
Proof. cbv zeta. repeat split; vm_compute; reflexivity. Qed.

(** ** C104: choosing nothing along a named axis. pack then fails, although it returns on the whole. *)
Theorem C104_empty_pack : forall (A : Type) (r : runtime A) (w p : pystr) (before after : list pystr) (place : tensor A -> nat)
    (Ts Zs : list (tensor A)) (X : tensor A) (ps : list (list Z)),
  runtime_ok r -> pack_pattern (rt_unicode r) p before after -> dim_of w before after place ->
  Forall2 (fun T Z => emptied (place T) T Z) Ts Zs -> pack r Ts p = Ok (X, ps) ->
  pack r Zs p = Err BackendError.
Proof. exact (fun A r w p before after place Ts Zs X ps Hr => pack_empty r Hr w p before after place Ts Zs X ps). Qed.
Print Assumptions C104_empty_pack.

(** unpack gives the parts with nothing chosen if no shape has a -1, and fails otherwise *)
Theorem C104_empty_unpack : forall (A : Type) (r : runtime A) (w p : pystr) (before after : list pystr) (place : tensor A -> nat)
    (X V : tensor A) (ps : list (list Z)) (Ts : list (tensor A)),
  runtime_ok r -> pack_pattern (rt_unicode r) p before after -> dim_of w before after place ->
  emptied (place X) X V -> unpack r X ps p = Ok Ts ->
  (Forall closed_shape ps -> exists Zs, unpack r V ps p = Ok Zs /\ Forall2 (fun T Z => emptied (place T) T Z) Ts Zs) /\
  (~ Forall closed_shape ps -> unpack r V ps p = Err RuntimeError).
Proof. exact (fun A r w p before after place X V ps Ts Hr => unpack_empty r Hr w p before after place X V ps Ts). Qed.
Print Assumptions C104_empty_unpack.

Example C104_empty_pack_case :
  let T1 := iota [1; 2; 3] in let T2 := iota [1; 3] in let Z1 := mkT [1; 2; 0] (@nil Z) in let Z2 := mkT [1; 0] (@nil Z) in
  let X := mkT [1; 3; 3] [0; 1; 2; 3; 4; 5; 0; 1; 2]%Z in let V := mkT [1; 3; 0] (@nil Z) in
  let place := fun T : tensor Z => length (shp T) - 1 in
  pack_pattern ascii_unicode ex_pattern [lit "i"] [lit "k"] /\ dim_of (lit "k") [lit "i"] [lit "k"] place /\
  Forall2 (fun T Z => emptied (place T) T Z) [T1; T2] [Z1; Z2] /\ emptied (place X) X V /\
  pack numpy_like [T1; T2] ex_pattern = Ok (X, [[2]; []]%Z) /\ pack numpy_like [Z1; Z2] ex_pattern = Err BackendError /\
  unpack numpy_like X [[2]; []]%Z ex_pattern = Ok [T1; T2] /\ unpack numpy_like V [[2]; []]%Z ex_pattern = Ok [Z1; Z2] /\
  unpack numpy_like X [[-1]; []]%Z ex_pattern = Ok [T1; T2] /\ unpack numpy_like V [[-1]; []]%Z ex_pattern = Err RuntimeError.
Proof.
  cbv zeta. split; [exact ex_pattern_ok|]. split; [exact (dim_after (lit "k") [lit "i"] [] [])|]. split; [|split].
  - constructor; [|constructor; [|constructor]]; (split; [reflexivity|]; split; [reflexivity|]).
    + exists [1; 2], 3. split; [cbn; lia|split; reflexivity].
    + exists [1], 3. split; [cbn; lia|split; reflexivity].
  - split; [reflexivity|]; split; [reflexivity|]. exists [1; 3], 3. split; [cbn; lia|split; reflexivity].
  - repeat split; vm_compute; reflexivity.
Qed.

(** ** C103: unpack of a batch in pieces of any lengths, some of them empty, if no shape has a -1 *)
Theorem C103_unpack_all : forall (A : Type) (r : runtime A) (w p : pystr) (before after : list pystr) (place : tensor A -> nat) (ns : list nat)
    (X : tensor A) (Xs : list (tensor A)) (ps : list (list Z)) (b : list nat) (n : nat) (a : list nat) (Ts : list (tensor A)),
  runtime_ok r -> pack_pattern (rt_unicode r) p before after -> dim_of w before after place ->
  shp X = b ++ [n] ++ a -> length b = length before -> length a = length after -> prodn (b ++ a) <> 0 ->
  ps <> [] -> Forall closed_shape ps ->
  cut_at ns place X Xs -> unpack r X ps p = Ok Ts ->
  exists Pss, Forall2 (fun x parts => unpack r x ps p = Ok parts) Xs Pss /\
    forall q T P, nth_error Ts q = Some T -> Forall2 (fun parts z => nth_error parts q = Some z) Pss P -> t_concat P (place T) = Ok T.
Proof. exact (fun A r w p before after place ns X Xs ps b n a Ts Hr => unpack_chunks_all r Hr w p before after place ns X Xs ps b n a Ts). Qed.
Print Assumptions C103_unpack_all.

(** pieces of lengths 2, 0 and 1 *)
Example C103_unpack_all_case :
  let X := mkT [1; 3; 3] [0; 1; 2; 3; 4; 5; 0; 1; 2]%Z in
  let X1 := mkT [1; 3; 2] [0; 1; 3; 4; 0; 1]%Z in let X2 := mkT [1; 3; 0] (@nil Z) in let X3 := mkT [1; 3; 1] [2; 5; 2]%Z in
  let place := fun T : tensor Z => length (shp T) - 1 in
  cut_at [2; 0; 1] place X [X1; X2; X3] /\ Forall closed_shape [[2]; []]%Z /\ prodn ([1] ++ [3]) <> 0 /\
  unpack numpy_like X [[2]; []]%Z ex_pattern = Ok [iota [1; 2; 3]; iota [1; 3]] /\
  unpack numpy_like X1 [[2]; []]%Z ex_pattern = Ok [mkT [1; 2; 2] [0; 1; 3; 4]%Z; mkT [1; 2] [0; 1]%Z] /\
  unpack numpy_like X2 [[2]; []]%Z ex_pattern = Ok [mkT [1; 2; 0] []; mkT [1; 0] []] /\
  unpack numpy_like X3 [[2]; []]%Z ex_pattern = Ok [mkT [1; 2; 1] [2; 5]%Z; mkT [1; 1] [2]%Z].
Proof.
  cbv zeta. split.
  { split; [vm_compute; reflexivity|]. split; [|reflexivity]. intros x [<-|[<-|[<-|[]]]]; reflexivity. }
  split. { repeat constructor; intros d Hd; cbn in Hd; intuition lia. }
  split; [cbn; lia|]. repeat split; vm_compute; reflexivity.
Qed.
