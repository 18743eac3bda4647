(** * Specification: what the error messages of pack, unpack, parse_shape and einsum claim

    Part of the specification. *)
From Verif Require Import Py Tensor SpecGrammar SpecForms SpecEinsum SpecPattern SpecPacking Parsing Recipe Ops Messages Complaints.
From Verif Require SpecMessages.

(** messages about the pattern of pack and unpack *)
Definition true_of_packing (U : unicode) (pattern : pystr) (c : complaint) : Prop :=
  exists ws, words U pattern ws /\
  match c with
  | RepeatedAxes => exists ws1 w ws2 ws3, ws = ws1 ++ w :: ws2 ++ w :: ws3
  | NoStar => ~ In (lit "*") ws
  | InvalidAxis w => In w ws /\ w <> lit "*" /\ ~ axis_name U w
  | _ => False
  end.

Definition true_of_pack {A} (U : unicode) (pattern : pystr) (ts : list (tensor A)) (c : complaint) : Prop :=
  match c with
  | FewAxes i shape least =>
      exists before after t, pack_pattern U pattern before after /\ nth_error ts i = Some t /\
        shape = map Z.of_nat (shp t) /\ least = length before + length after /\ length shape < least
  | _ => true_of_packing U pattern c
  end.

(** [n] elements can be divided into pieces of the requested shapes, in only one way *)
Definition divisible (ps : list (list Z)) (n : nat) : Prop :=
  exists ms, Forall2 (fun q m => fills q (prodn m) m) ps ms /\ list_sum (map prodn ms) = n.

(** Where another axis has length 0, libraries refuse to infer a -1, although the
    axis could be split *)
Definition true_of_unpack {A} (U : unicode) (pattern : pystr) (x : tensor A) (ps : list (list Z)) (c : complaint) : Prop :=
  match c with
  | WrongRank shape =>
      exists before after, pack_pattern U pattern before after /\ shape = map Z.of_nat (shp x) /\
        length shape <> length before + 1 + length after
  | ManyOpen => exists ps1 p ps2 q ps3, ps = ps1 ++ p :: ps2 ++ q :: ps3 /\ In (-1)%Z p /\ In (-1)%Z q
  | NoSplit z =>
      exists before after b n a, pack_pattern U pattern before after /\ shp x = b ++ [n] ++ a /\
        length b = length before /\ length a = length after /\ z = Z.of_nat n /\ (prodn (b ++ a) <> 0 -> ~ divisible ps n)
  | _ => true_of_packing U pattern c
  end.

Definition true_of_shape (U : unicode) (pattern : pystr) (shape : list Z) (c : complaint) : Prop :=
  match c with
  | InPattern m => SpecMessages.true_of_side U pattern m
  | _ =>
    exists e, written_as U true false pattern e /\
    match c with
    | Composite s => s = shape /\ exists i, In i e /\ 2 <= length (content i)
    | FewDims s => s = shape /\ has_dots e = true /\ length s < length e - 1
    | OtherDims s => s = shape /\ has_dots e = false /\ length s <> length e
    | NotOne s => s = shape /\ exists k i d, nth_error (opened e (length shape)) k = Some i /\ nth_error shape k = Some d /\
        content i = [] /\ d <> 1%Z
    | NotNumber s => s = shape /\ exists k i d n, nth_error (opened e (length shape)) k = Some i /\ nth_error shape k = Some d /\
        content i = [ANum n] /\ d <> n
    | _ => False
    end
  end.

Definition true_of_einsum (U : unicode) (pattern : pystr) (c : complaint) : Prop :=
  match c with
  | NoArrow => forall l r, pattern <> l ++ lit "->" ++ r
  | _ =>
    exists ls r, pattern = str_join (lit ",") ls ++ lit "->" ++ r /\ ls <> [] /\
    match c with
    | InPattern m => (exists l, In l ls /\ SpecMessages.true_of_side U l m) \/ SpecMessages.true_of_side U r m
    | _ =>
      exists es e, Forall2 (written_as U true true) ls es /\ written_as U true false r e /\
      match c with
      | Singleton => exists i, In i (concat es ++ e) /\ content i = []
      | Composed => exists i, In i (concat es ++ e) /\ 2 <= length (content i)
      | Anonymous => exists i n, In i (concat es ++ e) /\ content i = [ANum n]
      | ManyAxes => 52 < length (distinct (flat_map expr_names es))
      | UnknownAxis x => In x (expr_names e) /\ ~ In x (flat_map expr_names es)
      | _ => False
      end
    end
  end.
