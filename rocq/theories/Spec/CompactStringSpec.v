(** What the users of riegeli/base/compact_string.h rely on: each CompactString is a string of bytes of its own. *)
From Verif Require Import Base.Bytes Model.CompactString.

(** What the allocator promises (new_aligned.h NewAligned<void, 8>()): memory which is not in use, at an address which is not null and a multiple of 8, of the requested length, with any bytes in it; while the program does not have more than this many strings *)
Definition max_strings : Z := 2 ^ 32.
Definition platform_ok (E : env) : Prop := forall h n, zlen h <= max_strings -> 0 <= n <= max_allocation ->
  (forall l, ~ In (place E h n, l) h) /\ 0 < place E h n /\ place E h n mod 8 = 0 /\ place E h n + 16 < 2 ^ 64 /\ zlen (contents E h n) = n /\ bytes (contents E h n).

(** The value of the variable [i] as a string_view, its capacity() *)
Definition view (h : heap) (r : Z) : list Z := match ViewFromRaw h r with Some s => s | None => [] end.
Definition strings_of (w : world) : list (list Z) := map (view (wheap w)) (reprs w).
Definition str (S : list (list Z)) (i : nat) : list Z := nth i S [].
Definition there (w : world) (i : nat) : Prop := (i < length (reprs w))%nat.
Definition capacity_of (w : world) (i : nat) : Z := match capacity (wheap w) (get w i) with Some c => c | None => 0 end.

(** No program has a string as long as this *)
Definition limit : Z := 2 ^ 60.
Definition fits (n : Z) : Prop := 0 <= n <= limit.

(** When a call is allowed; [fill] has the length of what the call leaves uninitialized *)
Definition allowed (w : world) (o : op) : Prop :=
  let len (i : nat) := zlen (str (strings_of w) i) in
  match o with
  | New => zlen (reprs w) < max_strings
  | NewSize s | NewFrom s | NewForCStr s => zlen (reprs w) < max_strings /\ bytes s /\ fits (zlen s)
  | NewCopy i => zlen (reprs w) < max_strings /\ there w i
  | Destroy i | ShrinkToFit i | CStr i => there w i
  | Assign_ i s => there w i /\ bytes s /\ fits (zlen s)
  | AssignSelf i off n => there w i /\ 0 <= off /\ 0 <= n /\ off + n <= len i
  | AssignCopy_ i j | Move i j => there w i /\ there w j
  | SetSize i n fill => there w i /\ fits n /\ n <= capacity_of w i /\ bytes fill /\ zlen fill = n - Z.min n (len i)
  | Resize i n fill => there w i /\ fits n /\ bytes fill /\ zlen fill = n - Z.min n (len i)
  | ResizeUsed i n used fill => there w i /\ fits n /\ 0 <= used <= len i /\ used <= n /\ bytes fill /\ zlen fill = n - used
  | Reserve i n => there w i /\ fits n
  | AppendLength i s | Append i s => there w i /\ bytes s /\ fits (len i + zlen s)
  | AppendSelf i off n => there w i /\ 0 <= off /\ 0 <= n /\ off + n <= len i /\ fits (len i + n)
  | SetChar i k b => there w i /\ 0 <= k < len i /\ is_byte b
  end.

(** The strings after a call *)
Definition effect (o : op) (S : list (list Z)) : list (list Z) :=
  match o with
  | New => S ++ [[]]
  | NewSize s | NewFrom s | NewForCStr s => S ++ [s]
  | NewCopy j => S ++ [str S j]
  | Destroy i => set_nth i [] S
  | Assign_ i s => set_nth i s S
  | AssignSelf i off n => set_nth i (zslice off n (str S i)) S
  | AssignCopy_ i j => set_nth i (str S j) S
  (* the source of a move becomes empty, unless it is the target too *)
  | Move i j => set_nth i (str S j) (set_nth j [] S)
  | SetSize i n fill | Resize i n fill => set_nth i (ztake n (str S i) ++ fill) S
  | ResizeUsed i n used fill => set_nth i (ztake used (str S i) ++ fill) S
  | Reserve i n => S
  | ShrinkToFit i | CStr i => S
  | AppendLength i s | Append i s => set_nth i (str S i ++ s) S
  | AppendSelf i off n => set_nth i (str S i ++ zslice off n (str S i)) S
  | SetChar i k b => set_nth i (ztake k (str S i) ++ [b] ++ zdrop (k + 1) (str S i)) S
  end.

(** The states which a program can get to by allowed calls *)
Inductive reachable (E : env) : world -> Prop :=
| reach_start : reachable E start
| reach_call w o w' : reachable E w -> allowed w o -> exec E w o = Some w' -> reachable E w'.
