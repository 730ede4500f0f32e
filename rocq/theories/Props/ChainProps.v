(** C39: every Chain of a program is a string of bytes of its own. *)
From Verif Require Import Base.Bytes Model.BufferSizer Model.Chain Model.ChainWorld Spec.ChainSpec Proof.ChainHeap Proof.ChainSteps Proof.ChainAppend Proof.ChainRemove Proof.ChainRest Proof.ChainQuery Proof.ChainWorldProof.

(** Whatever calls were made before on whatever Chains and blocks: an allowed call fails no assertion and writes outside no block, and has the effect on the strings which the specification says, with all other Chains and blocks unchanged. *)
Theorem Chain_call E w o : platform_ok E -> reachable E w -> allowed o (strings_of w) ->
  exists w', exec E w o = Some w' /\ effect o (strings_of w) (strings_of w').
Proof. intros P H A. destruct (exec_ok E (env_of E P) w o (reachable_WI E w P H) A) as (w' & X & _ & EF). eauto. Qed.

(** size(), and the blocks() of a Chain in order, agree with CopyTo() *)
Theorem Chain_read E w i : platform_ok E -> reachable E w -> there (strings_of w) i ->
  csize (get w i) = zlen (str (strings_of w) i) /\ csize (get w i) <= SIZE_MAX /\ concat (views (wheap w) (get w i)) = str (strings_of w) i.
Proof.
  intros P H T. apply there_len in T. destruct (size_content w i (reachable_WI E w P H) T) as (A & B & C). split; [exact A|]. split; [exact B|]. rewrite get_CopyTo. now apply views_content.
Qed.

(** Compare(), operator==: the order of the strings, for any blocks *)
Theorem Chain_compare E w i j : platform_ok E -> reachable E w -> there (strings_of w) i -> there (strings_of w) j ->
  Compare (wheap w) (get w i) (get w j) = Some (lexicographic (str (strings_of w) i) (str (strings_of w) j)) /\
  exists r, Equal (wheap w) (get w i) (get w j) = Some r /\ (r = true <-> str (strings_of w) i = str (strings_of w) j).
Proof.
  intros P H T T'. apply there_len in T. apply there_len in T'. destruct (size_content w i (reachable_WI E w P H) T) as (_ & _ & C). destruct (size_content w j (reachable_WI E w P H) T') as (_ & _ & C').
  rewrite !get_CopyTo. split; [now apply Compare_ok|now apply Equal_ok].
Qed.
Theorem Chain_compare_string E w i s : platform_ok E -> reachable E w -> there (strings_of w) i ->
  CompareStr (wheap w) (get w i) s = Some (lexicographic (str (strings_of w) i) s) /\
  exists r, EqualStr (wheap w) (get w i) s = Some r /\ (r = true <-> str (strings_of w) i = s).
Proof.
  intros P H T. apply there_len in T. destruct (size_content w i (reachable_WI E w P H) T) as (_ & _ & C). rewrite !get_CopyTo. split; [now apply CompareStr_ok|now apply EqualStr_ok].
Qed.

(** BlockAndCharIndex() finds the block of a byte; CharIndexInChain() finds the index of a block *)
Theorem Chain_index E w i n : platform_ok E -> reachable E w -> there (strings_of w) i -> 0 <= n < zlen (str (strings_of w) i) ->
  exists k j, BlockAndCharIndex (wheap w) (get w i) n = Some (k, j) /\ located (views (wheap w) (get w i)) n k j.
Proof.
  intros P H T N. apply there_len in T. destruct (size_content w i (reachable_WI E w P H) T) as (A & B & C). apply BlockAndCharIndex_ok; [exact C|exact B|lia].
Qed.
Theorem Chain_index_end E w i : platform_ok E -> reachable E w -> there (strings_of w) i ->
  BlockAndCharIndex (wheap w) (get w i) (zlen (str (strings_of w) i)) = Some (zlen (views (wheap w) (get w i)), 0).
Proof. intros P H T. apply there_len in T. destruct (size_content w i (reachable_WI E w P H) T) as (A & _). rewrite <- A. apply BlockAndCharIndex_end. Qed.
Theorem Chain_block_index E w i k : platform_ok E -> reachable E w -> there (strings_of w) i -> 0 <= k <= zlen (views (wheap w) (get w i)) ->
  CharIndexInChain (wheap w) (get w i) k = Some (zlen (concat (firstn (Z.to_nat k) (views (wheap w) (get w i))))).
Proof. intros P H T N. apply there_len in T. destruct (size_content w i (reachable_WI E w P H) T) as (A & B & C). now apply CharIndexInChain_ok. Qed.

(** After Flatten() there is at most one block *)
Theorem Chain_flat E w i w' : platform_ok E -> reachable E w -> allowed (Flatten_ i) (strings_of w) -> exec E w (Flatten_ i) = Some w' -> zlen (views (wheap w') (get w' i)) <= 1.
Proof.
  intros P H A X. pose proof (reachable_WI E w P H) as W. destruct A as (T & FI). apply there_len in T. destruct (size_content w i W T) as (S1 & S2 & S3). destruct w as [h cs bl]. cbn [wheap wchains wblocks] in *.
  destruct (Flatten_ok E (env_of E P) (R (set_nth i empty_chain cs) bl) (fun x => R_pos _ _ x) h (nth i cs empty_chain)) as (h' & c' & E1 & PO & C1).
  { destruct W as [I _]. eapply Inv_ext; [|exact I]. intros x. unfold plus. now apply R_get. } { exact S3. } { unfold get in S1. cbn [wchains] in S1. lia. }
  cbn [exec] in X. unfold get in X. cbn [wchains wheap] in X. rewrite E1 in X. injection X as <-. unfold get, with_chain. cbn [fst snd wheap wchains]. rewrite nth_set_same by exact T.
  unfold views, count in *. destruct (cblocks c') as [|b bs] eqn:EB; [destruct (csize c' =? 0); [change (zlen (@nil (list Z))) with 0|change (zlen [short_data c']) with 1]; lia|]. unfold zlen in *. rewrite map_length. exact C1.
Qed.

(** No block is used after it is freed, and when all Chains and blocks are destroyed every block is freed *)
Theorem Chain_blocks_alive E w b : platform_ok E -> reachable E w -> (exists c, In c (wchains w) /\ In b (cblocks c)) \/ In b (wblocks w) -> 0 < rc (blk (wheap w) b).
Proof.
  intros P H Q. destruct (reachable_WI E w P H) as [I _]. eapply inv_live; [exact I|]. unfold R. apply cnt_in. unfold refs. apply in_or_app. destruct Q as [(c & C1 & C2)|Q]; [left|now right].
  apply in_concat. exists (cblocks c). split; [now apply in_map|exact C2].
Qed.
Theorem Chain_no_leak E w : platform_ok E -> reachable E w -> wblocks w = [] ->
  exists w', run E w (map Destroy_ (seq 0 (length (wchains w)))) = Some w' /\ forall b, rc (blk (wheap w') b) = 0.
Proof.
  intros P H NB. destruct (destroy_all E P (seq 0 (length (wchains w))) w (reachable_WI E w P H)) as (w' & X & W' & L & B & C). { intros i HI. apply in_seq in HI. lia. }
  exists w'. split; [exact X|]. apply nothing_left. destruct W' as [I _]. eapply Inv_ext; [|exact I]. intros x. apply R_nothing; [|congruence]. intros k.
  destruct (Nat.lt_ge_cases k (length (wchains w))) as [LT|GE]; [apply C; left; apply in_seq; lia|]. rewrite nth_overflow by (rewrite L; exact GE). reflexivity.
Qed.

(** A platform, and the default options *)
Definition plain : env := {| offset := 32; granted := fun _ m => Z.min kMaxCapacity ((m + 15) / 16 * 16) |}.
Definition default : options := {| size_hint := None; min_block_size := kDefaultMinBlockSize; max_block_size := kDefaultMaxBlockSize |}.
Example plain_ok : platform_ok plain.
Proof.
  split; [cbn [plain offset]; lia|]. intros n m M. cbn [plain offset granted]. pose proof (Z.div_mod (m + 15) 16 ltac:(lia)). pose proof (Z.mod_pos_bound (m + 15) 16 ltac:(lia)). unfold kDefaultMinBlockSize. lia.
Qed.

(** A program: two Chains which share blocks, changed in turn, and a block which outlives its Chain *)
Definition a600 : list Z := repeat 1 600.
Definition b700 : list Z := repeat 2 700.
Definition program : list op :=
  [New; New; New; Append_ 0 [5; 6] default; Append_ 0 a600 default; AppendExternal_ 0 b700 default; AppendChain_ true 1 0 default; Append_ 1 [7; 8] default; Prepend_ 0 [9] default;
   RemovePrefix_ 1 3 default; RemoveSuffix_ 0 650 default; Pin 1 550 1000; Assign_ 2 1; Clear_ 1; PrependBlock_ false 1 0 default; AppendChain_ false 2 0 default; Swap_ 0 1; Flatten_ 2; DropBlock 0].
Example program_strings : exists w, run_allowed plain start program = Some w /\ reachable plain w /\
  strings_of w = {| chains_ := [repeat 1 49; []; (repeat 1 599 ++ repeat 2 700 ++ [7; 8]) ++ [9; 5; 6] ++ repeat 1 600 ++ repeat 2 50]; blocks_ := [] |}.
Proof.
  destruct (run_allowed plain start program) as [w|] eqn:X; [|vm_compute in X; discriminate]. exists w. split; [reflexivity|]. split; [exact (run_allowed_reachable _ _ _ _ (at_start _) X)|].
  vm_compute in X. injection X as <-. vm_compute. reflexivity.
Qed.

(** A finding: an empty block appended after an empty block which is shared, with the size as the size hint, asks for a block of capacity zero (chain.cc:1468-1492, 118-124) *)
Definition hinted : options := {| size_hint := Some 0; min_block_size := kDefaultMinBlockSize; max_block_size := kDefaultMaxBlockSize |}.
Theorem Chain_empty_block_fails : exists E w, platform_ok E /\ reachable E w /\
  there (strings_of w) 1 /\ held (strings_of w) 0 /\ options_ok hinted /\ strings_of w = {| chains_ := [[]; []]; blocks_ := [[]] |} /\ exec E w (AppendBlock_ false 1 0 hinted) = None.
Proof.
  set (ops := [New; New; Append_ 0 a600 default; Clear_ 0; Assign_ 1 0; NewBlock []]). exists plain.
  destruct (run_allowed plain start ops) as [w|] eqn:X; [|vm_compute in X; discriminate]. exists w. split; [exact plain_ok|]. split; [exact (run_allowed_reachable _ _ _ _ (at_start _) X)|].
  vm_compute in X. injection X as <-. split; [vm_compute; lia|]. split; [vm_compute; lia|]. split; [split; [cbn; unfold kDefaultMinBlockSize; lia|split; [cbn; unfold kDefaultMaxBlockSize; lia|intros s [= <-]; lia]]|].
  split; [vm_compute; reflexivity|]. vm_compute. reflexivity.
Qed.

Print Assumptions Chain_call.
Print Assumptions Chain_read.
Print Assumptions Chain_compare.
Print Assumptions Chain_compare_string.
Print Assumptions Chain_index.
Print Assumptions Chain_index_end.
Print Assumptions Chain_block_index.
Print Assumptions Chain_flat.
Print Assumptions Chain_blocks_alive.
Print Assumptions Chain_no_leak.
Print Assumptions Chain_empty_block_fails.
