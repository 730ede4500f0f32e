(** What the users of riegeli/base/chain.h rely on: each Chain is a string of bytes of its own, and each Chain::Block is a constant string of bytes.

    The state is one string for each Chain variable and one for each Chain::Block variable. *)
From Verif Require Import Base.Bytes Model.Chain Model.ChainWorld.

Record strings := { chains_ : list (list Z); blocks_ : list (list Z) }.
Definition str (S : strings) (i : nat) : list Z := nth i (chains_ S) [].
Definition blk_str (S : strings) (k : nat) : list Z := nth k (blocks_ S) [].
Definition there (S : strings) (i : nat) : Prop := (i < length (chains_ S))%nat.
Definition held (S : strings) (k : nat) : Prop := (k < length (blocks_ S))%nat.
(** The string [i] becomes [s] and nothing else changes *)
Definition put (i : nat) (s : list Z) (S : strings) : strings := {| chains_ := set_nth i s (chains_ S); blocks_ := blocks_ S |}.
Definition hold (s : list Z) (S : strings) : strings := {| chains_ := chains_ S; blocks_ := blocks_ S ++ [s] |}.
Definition release (k : nat) (S : strings) : strings := {| chains_ := chains_ S; blocks_ := del_nth k (blocks_ S) |}.

(** chain_base.h:80-166: block sizes are small integers, a size hint is a size *)
Definition options_ok (opt : options) : Prop := 0 <= min_block_size opt /\ 0 < max_block_size opt <= 2 ^ 31 /\ (forall s, size_hint opt = Some s -> 0 <= s).
(** An empty block is only passed with options which ask for some capacity (see [Chain_empty_block_fails]) *)
Definition block_ok_with (opt : options) (s : list Z) : Prop := 0 < zlen s \/ (size_hint opt = None /\ 0 < min_block_size opt).
Definition fits (n : Z) : Prop := n <= SIZE_MAX.

(** When a call is allowed: the variables exist and are different, and the result fits in a size_t *)
Definition allowed (o : op) (S : strings) : Prop :=
  match o with
  | New => True
  | Append_ i s opt | Prepend_ i s opt | AppendExternal_ i s opt | PrependExternal_ i s opt => there S i /\ options_ok opt /\ fits (zlen (str S i) + zlen s)
  | AppendBuffer_ i min rec max opt fill | PrependBuffer_ i min rec max opt fill =>
    there S i /\ options_ok opt /\ 0 <= min <= max /\ min <= kMaxCapacity /\ fits (zlen (str S i) + min) /\ (forall n, 0 <= n <= max -> zlen (fill n) = n)
  | AppendChain_ share i j opt | PrependChain_ share i j opt => there S i /\ there S j /\ i <> j /\ options_ok opt /\ fits (zlen (str S i) + zlen (str S j))
  | AppendBlock_ move i k opt | PrependBlock_ move i k opt => there S i /\ held S k /\ options_ok opt /\ block_ok_with opt (blk_str S k) /\ fits (zlen (str S i) + zlen (blk_str S k))
  | RemoveSuffix_ i n opt | RemovePrefix_ i n opt => there S i /\ options_ok opt /\ 0 <= n <= zlen (str S i)
  | Clear_ i | Destroy_ i => there S i
  | Assign_ i j | Move_ i j | Swap_ i j => there S i /\ there S j /\ i <> j
  | Flatten_ i => there S i /\ zlen (str S i) <= kMaxCapacity
  | NewBlock s => fits (zlen s)
  | Pin i off len => there S i /\ 0 <= off < zlen (str S i) /\ 0 <= len
  | CopyBlock k | DropBlock k => held S k
  end.

(** What a call does *)
Definition effect (o : op) (S S' : strings) : Prop :=
  match o with
  | New => S' = {| chains_ := chains_ S ++ [[]]; blocks_ := blocks_ S |}
  | Append_ i s _ | AppendExternal_ i s _ => S' = put i (str S i ++ s) S
  | Prepend_ i s _ | PrependExternal_ i s _ => S' = put i (s ++ str S i) S
  | AppendBuffer_ i min _ max _ fill => exists n, min <= n <= max /\ S' = put i (str S i ++ fill n) S
  | PrependBuffer_ i min _ max _ fill => exists n, min <= n <= max /\ S' = put i (fill n ++ str S i) S
  (* a string which was moved from is unspecified *)
  | AppendChain_ share i j _ => exists left, (share = true -> left = str S j) /\ S' = put j left (put i (str S i ++ str S j) S)
  | PrependChain_ share i j _ => exists left, (share = true -> left = str S j) /\ S' = put j left (put i (str S j ++ str S i) S)
  | AppendBlock_ move i k _ => S' = (if move then release k else id) (put i (str S i ++ blk_str S k) S)
  | PrependBlock_ move i k _ => S' = (if move then release k else id) (put i (blk_str S k ++ str S i) S)
  | RemoveSuffix_ i n _ => S' = put i (ztake (zlen (str S i) - n) (str S i)) S
  | RemovePrefix_ i n _ => S' = put i (zdrop n (str S i)) S
  | Clear_ i | Destroy_ i => S' = put i [] S
  | Assign_ i j => S' = put i (str S j) S
  | Move_ i j => S' = put j [] (put i (str S j) S)
  | Swap_ i j => S' = put j (str S i) (put i (str S j) S)
  | Flatten_ i => S' = S
  | NewBlock s => S' = hold s S
  (* the bytes from [off], at least one of them if any are asked for *)
  | Pin i off len => exists n, 0 <= n <= len /\ (0 < len -> 0 < n) /\ S' = hold (ztake n (zdrop off (str S i))) S
  | CopyBlock k => S' = hold (blk_str S k) S
  | DropBlock k => S' = release k S
  end.

(** The order of strings *)
Fixpoint lexicographic (a b : list Z) : comparison :=
  match a, b with
  | [], [] => Eq
  | [], _ :: _ => Lt
  | _ :: _, [] => Gt
  | x :: a, y :: b => match x ?= y with Eq => lexicographic a b | other => other end
  end.

(** The platform: an allocated block is at least as large as what was asked for, below the limit of sizes, and not much larger; Chain relies on the last point (chain.cc:139-146 asserts it) *)
Definition platform_ok (E : env) : Prop :=
  0 <= offset E /\ forall n m, 0 < m <= kMaxCapacity -> m <= granted E n m <= kMaxCapacity /\ offset E + granted E n m <= 2 * m + kDefaultMinBlockSize.

(** The strings which a program sees: CopyTo() of each Chain, and the bytes of each Chain::Block *)
Definition strings_of (w : world) : strings := {| chains_ := map (CopyTo (wheap w)) (wchains w); blocks_ := map (data (wheap w)) (wblocks w) |}.

(** The states which a program can reach by allowed calls *)
Inductive reachable (E : env) : world -> Prop :=
| at_start : reachable E start
| after_call w o w' : reachable E w -> allowed o (strings_of w) -> exec E w o = Some w' -> reachable E w'.

(** The byte [i] of the concatenation of [blocks] is the byte [j] of the block [k] *)
Definition located (blocks : list (list Z)) (i k j : Z) : Prop :=
  0 <= k < zlen blocks /\ 0 <= j < zlen (nth (Z.to_nat k) blocks []) /\ zlen (concat (firstn (Z.to_nat k) blocks)) + j = i.
