(** A program which uses riegeli/base/chain.h: a number of Chain variables and a number of Chain::Block variables, and calls on them. *)
From Verif Require Import Base.Bytes Model.Chain.

Fixpoint set_nth {A} (i : nat) (x : A) (l : list A) : list A := match l, i with [], _ => [] | _ :: l, O => x :: l | y :: l, S i => y :: set_nth i x l end.
Fixpoint del_nth {A} (i : nat) (l : list A) : list A := match l, i with [], _ => [] | _ :: l, O => l | y :: l, S i => y :: del_nth i l end.

Inductive op :=
(** Chain() *)
| New
(** Append(string_view), Prepend(string_view): chain_base.h:315-340 *)
| Append_ (i : nat) (s : list Z) (opt : options)
| Prepend_ (i : nat) (s : list Z) (opt : options)
(** Append(ExternalRef), Prepend(ExternalRef) of an object which owns its bytes *)
| AppendExternal_ (i : nat) (s : list Z) (opt : options)
| PrependExternal_ (i : nat) (s : list Z) (opt : options)
(** AppendBuffer(), PrependBuffer() and filling the buffer: chain_base.h:285-312 *)
| AppendBuffer_ (i : nat) (min_length recommended_length max_length : Z) (opt : options) (fill : Z -> list Z)
| PrependBuffer_ (i : nat) (min_length recommended_length max_length : Z) (opt : options) (fill : Z -> list Z)
(** Append(const Chain&) if [share], Append(Chain&&) otherwise; Prepend() *)
| AppendChain_ (share : bool) (i j : nat) (opt : options)
| PrependChain_ (share : bool) (i j : nat) (opt : options)
(** Append(Block&&) if [move], Append(const Block&) otherwise; Prepend() *)
| AppendBlock_ (move : bool) (i k : nat) (opt : options)
| PrependBlock_ (move : bool) (i k : nat) (opt : options)
(** RemoveSuffix(), RemovePrefix() *)
| RemoveSuffix_ (i : nat) (length : Z) (opt : options)
| RemovePrefix_ (i : nat) (length : Z) (opt : options)
(** Clear(), and the destructor followed by a new Chain() *)
| Clear_ (i : nat)
| Destroy_ (i : nat)
(** operator=(const Chain&), operator=(Chain&&), swap() *)
| Assign_ (i j : nat)
| Move_ (i j : nat)
| Swap_ (i j : nat)
(** Flatten() *)
| Flatten_ (i : nat)
(** Chain::Block(object) *)
| NewBlock (s : list Z)
(** the block found by BlockAndCharIndex(off), and a Chain::Block for at most [len] of its bytes from there (BlockRef::ToChainBlock()) *)
| Pin (i : nat) (off len : Z)
(** Chain::Block(const Block&), its destructor *)
| CopyBlock (k : nat)
| DropBlock (k : nat).

Record world := { wheap : heap; wchains : list chain; wblocks : list Z }.
(** No block has been allocated *)
Definition empty_heap : heap := {| nxt := 1; blk := fun _ => {| rc := 0; cap := None; sb := 0; dat := [] |}; wraps := [] |}.
Definition start : world := {| wheap := empty_heap; wchains := []; wblocks := [] |}.
Definition get (w : world) (i : nat) : chain := nth i (wchains w) empty_chain.
Definition get_block (w : world) (k : nat) : Z := nth k (wblocks w) 0.
Definition with_chain (w : world) (i : nat) (r : heap * chain) : world := {| wheap := fst r; wchains := set_nth i (snd r) (wchains w); wblocks := wblocks w |}.
Definition with_chains (w : world) (i j : nat) (h : heap) (c d : chain) : world := {| wheap := h; wchains := set_nth j d (set_nth i c (wchains w)); wblocks := wblocks w |}.

(** chain_details.h:832-843 Block(RawBlock*, substr): the block for [len] bytes from [off] of [b], shared with the owner of [b] *)
Definition ShareBlock (h : heap) (b off len : Z) : Z * heap :=
  if size h b =? len then (b, Ref h b)
  else let '(t, off) := match find_wrap h b with Some (t, o) => (t, o + off) | None => (b, off) end in NewWrapper (Ref h t) t off len.

Section Exec.
Context (E : env).
Definition exec (w : world) (o : op) : option world :=
  let h := wheap w in
  match o with
  | New => Some {| wheap := h; wchains := wchains w ++ [empty_chain]; wblocks := wblocks w |}
  | Append_ i s opt => option_map (with_chain w i) (Append E h (get w i) s opt)
  | Prepend_ i s opt => option_map (with_chain w i) (Prepend E h (get w i) s opt)
  | AppendExternal_ i s opt => option_map (with_chain w i) (AppendExternal E h (get w i) s opt)
  | PrependExternal_ i s opt => option_map (with_chain w i) (PrependExternal E h (get w i) s opt)
  | AppendBuffer_ i mn rec mx opt fill => let* (n, h, c) := AppendBuffer E h (get w i) mn rec mx opt fill in Some (with_chain w i (h, c))
  | PrependBuffer_ i mn rec mx opt fill => let* (n, h, c) := PrependBuffer E h (get w i) mn rec mx opt fill in Some (with_chain w i (h, c))
  | AppendChain_ share i j opt => let* (h, c, d) := AppendChain E share h (get w i) (get w j) opt in Some (with_chains w i j h c d)
  | PrependChain_ share i j opt => let* (h, c, d) := PrependChain E share h (get w i) (get w j) opt in Some (with_chains w i j h c d)
  | AppendBlock_ move i k opt =>
    let b := get_block w k in
    if move then option_map (with_chain {| wheap := h; wchains := wchains w; wblocks := del_nth k (wblocks w) |} i) (AppendRawBlock E h (get w i) b opt)
    else option_map (with_chain w i) (AppendRawBlock E (Ref h b) (get w i) b opt)
  | PrependBlock_ move i k opt =>
    let b := get_block w k in
    if move then option_map (with_chain {| wheap := h; wchains := wchains w; wblocks := del_nth k (wblocks w) |} i) (PrependRawBlock E h (get w i) b opt)
    else option_map (with_chain w i) (PrependRawBlock E (Ref h b) (get w i) b opt)
  | RemoveSuffix_ i n opt => option_map (with_chain w i) (RemoveSuffix E h (get w i) n opt)
  | RemovePrefix_ i n opt => option_map (with_chain w i) (RemovePrefix E h (get w i) n opt)
  | Clear_ i => Some (with_chain w i (Clear h (get w i)))
  | Destroy_ i => Some (with_chain w i (Destroy h (get w i), empty_chain))
  | Assign_ i j => Some (with_chain w i (Assign h (get w i) (get w j)))
  | Move_ i j => let '(h, c, d) := MoveAssign h (get w i) (get w j) in Some (with_chains w i j h c d)
  | Swap_ i j => Some (with_chains w i j h (get w j) (get w i))
  | Flatten_ i => option_map (with_chain w i) (Flatten E h (get w i))
  | NewBlock s => let '(b, h) := NewExternal h s in Some {| wheap := h; wchains := wchains w; wblocks := wblocks w ++ [b] |}
  | Pin i off len =>
    let c := get w i in
    let* (k, j) := BlockAndCharIndex h c off in
    let '(b, h) := match cblocks c with
                   | [] => NewExternal h (ztake len (zdrop off (short_data c))) (* a caller copies short data (BlockRef::ExternalCopy()) *)
                   | bs => let b := nth (Z.to_nat k) bs 0 in ShareBlock h b j (Z.min len (size h b - j))
                   end in
    Some {| wheap := h; wchains := wchains w; wblocks := wblocks w ++ [b] |}
  | CopyBlock k => Some {| wheap := Ref h (get_block w k); wchains := wchains w; wblocks := wblocks w ++ [get_block w k] |}
  | DropBlock k => Some {| wheap := Unref h (get_block w k); wchains := wchains w; wblocks := del_nth k (wblocks w) |}
  end.

Fixpoint run (w : world) (ops : list op) : option world := match ops with [] => Some w | o :: ops => let* w := exec w o in run w ops end.
End Exec.
