(** C49: a CompactString is a string of bytes. *)
From Verif Require Import Base.Bytes Model.CompactString Spec.CompactStringSpec Proof.CompactStringBase Proof.CompactStringOps Proof.CompactStringWorld.
From Coq Require Import Permutation.

(** Every allowed call of every program succeeds: no assertion fails, no memory outside of an allocation is accessed, no memory is freed twice or with a wrong length; and the strings change as the call says, with no change of the other strings *)
Theorem CompactString_call E w o : platform_ok E -> reachable E w -> allowed w o -> exists w', exec E w o = Some w' /\ reachable E w' /\ strings_of w' = effect o (strings_of w).
Proof. intros P R A. destruct (exec_ok E P w o (reachable_WI E P w R) A) as (w' & X & _ & S). exists w'. split; [exact X|]. split; [exact (reach_call E w o w' R A X)|exact S]. Qed.

(** What the reading functions return *)
Theorem CompactString_read E w i : platform_ok E -> reachable E w -> there w i -> let s := str (strings_of w) i in
  ViewFromRaw (wheap w) (get w i) = Some s /\ size (wheap w) (get w i) = Some (zlen s) /\
  capacity (wheap w) (get w i) = Some (capacity_of w i) /\ zlen s <= capacity_of w i /\ bytes s.
Proof.
  intros P R T. destruct (WI_rep w i (reachable_WI E P w R) T) as (n & full & RP & L & S & LN). cbn zeta. rewrite LN, S. unfold capacity_of. rewrite (capacity_ok _ _ _ _ RP), (size_ok _ _ _ _ RP), (view_ok _ _ _ _ RP).
  pose proof (bytes_val _ _ _ _ RP). destruct RP as (_ & N & _). repeat split; try lia. assumption.
Qed.

(** The capacity after reserve() *)
Theorem CompactString_reserve E w i n : platform_ok E -> reachable E w -> allowed w (Reserve i n) -> exists w', exec E w (Reserve i n) = Some w' /\ n <= capacity_of w' i.
Proof.
  intros P R (T & F). unfold fits in F. pose proof (reachable_WI E P w R) as W. pose proof (env_of E (wheap w) P (WI_heap w W)) as EO. destruct (WI_rep w i W T) as (m & full & RP & L & S & LN).
  destruct (reserve_ok E _ EO _ m full _ n (WI_owns w i W T) RP ltac:(apply F)) as (h2 & r2 & f2 & X & R2 & T2 & C & F2). cbn [exec]. rewrite X. eexists. split; [reflexivity|]. unfold capacity_of, get, put. cbn [fst snd wheap reprs].
  rewrite nth_same by exact T. rewrite (capacity_ok _ _ _ _ R2). exact C.
Qed.

(** c_str() points to the bytes of the string and a NUL *)
Theorem CompactString_c_str E w i : platform_ok E -> reachable E w -> there w i -> exists h r, c_str E (wheap w) (get w i) = Some (h, r, str (strings_of w) i ++ [0]).
Proof.
  intros P R T. pose proof (reachable_WI E P w R) as W. pose proof (env_of E (wheap w) P (WI_heap w W)) as EO. destruct (WI_rep w i W T) as (m & full & RP & L & S & LN). rewrite S.
  destruct (c_str_ok E _ EO _ m full _ (WI_owns w i W T) RP L) as (h2 & r2 & f2 & X & _). exists h2, r2. exact X.
Qed.

(** The comparisons are those of the strings *)
Theorem CompactString_compare E w i j : platform_ok E -> reachable E w -> there w i -> there w j ->
  (exists b, Equal (wheap w) (get w i) (get w j) = Some b /\ (b = true <-> str (strings_of w) i = str (strings_of w) j)) /\
  Compare (wheap w) (get w i) (get w j) = Some (lex_cmp (str (strings_of w) i) (str (strings_of w) j)).
Proof.
  intros P R I J. destruct (CompactString_read E w i P R I) as (VI & _). destruct (CompactString_read E w j P R J) as (VJ & _). unfold Equal, Compare. destruct (Z.eqb_spec (get w i) (get w j)) as [Q|Q].
  - rewrite Q, VJ in VI. injection VI as VI. rewrite VI. split; [exists true; tauto|]. now rewrite lex_cmp_refl.
  - rewrite VI, VJ. split; [|reflexivity]. eexists. split; [reflexivity|apply list_eqb_eq].
Qed.

(** All the memory is freed when all the strings are destroyed *)
Theorem CompactString_no_leak E w : platform_ok E -> reachable E w -> exists w', run E w (map Destroy (seq 0 (length (reprs w)))) = Some w' /\ wheap w' = [].
Proof.
  intros P R. destruct (destroy_all E P w (length (reprs w)) (reachable_WI E P w R) (le_n _)) as (w' & X & W & L & G). exists w'. split; [exact X|]. apply all_inline_empty; [exact W|]. intros i Hi. apply G. lia.
Qed.

(** A finding: reserve() of a capacity which max_size() allows gets memory of length 0, and writes outside of it *)
Theorem CompactString_max_size_fails E h n : 2 ^ 64 - 31 <= n <= max_size -> zlen (contents E h 0) = 0 ->
  (exists b h', Allocate E h (EstimatedAllocatedSize (n + 16)) = Some (b, h') /\ find_block h' b = Some []) /\ reserve E h kInlineTag n = None.
Proof.
  intros N C. assert (C' : contents E h 0 = []) by now apply zlen_0_nil.
  assert (EA : EstimatedAllocatedSize (n + 16) = 0).
  { unfold EstimatedAllocatedSize, RoundUp16. unfold max_size in N. rewrite Z.max_l by lia. assert (Q : exists k, n + 16 - 1 = 2 ^ 64 - 16 + k /\ 0 <= k < 16) by (exists (n + 16 - 1 - (2 ^ 64 - 16)); lia).
    destruct Q as (k & -> & K). assert (KK : k = 0 \/ k = 1 \/ k = 2 \/ k = 3 \/ k = 4 \/ k = 5 \/ k = 6 \/ k = 7 \/ k = 8 \/ k = 9 \/ k = 10 \/ k = 11 \/ k = 12 \/ k = 13 \/ k = 14 \/ k = 15) by lia.
    repeat (destruct KK as [->|KK]; [reflexivity|]). subst k. reflexivity. }
  rewrite EA. split.
  - unfold Allocate. change (0 <=? max_allocation) with true. cbn [check]. rewrite C'. eexists _, _. split; [reflexivity|]. cbn [find_block]. now rewrite Z.eqb_refl.
  - unfold max_size in N. unfold reserve. change (capacity h kInlineTag) with (Some 7). cbn [option_map]. replace (n <=? 7) with false by (symmetry; apply Z.leb_gt; lia). change (size h kInlineTag) with (Some 0). cbv beta iota.
    unfold ResizeSlow. change (size h kInlineTag) with (Some 0). change (capacity h kInlineTag) with (Some 7). unfold check at 1 2 3 4. replace (0 <=? n) with true by (symmetry; apply Z.leb_le; lia). cbv beta iota. change (0 <=? 0) with true. cbv beta iota.
    replace (kInlineCapacity <? n) with true by (symmetry; apply Z.ltb_lt; unfold kInlineCapacity; lia). change (u64 (7 + 7 / 2)) with 10. rewrite Z.max_l by lia. unfold MakeReprSlow. unfold check at 1 2 3.
    replace (0 <=? n) with true by (symmetry; apply Z.leb_le; lia). replace (kInlineCapacity <? n) with true by (symmetry; apply Z.ltb_lt; unfold kInlineCapacity; lia).
    replace (n <=? 255) with false by (symmetry; apply Z.leb_gt; lia). replace (n <=? 65535) with false by (symmetry; apply Z.leb_gt; lia). replace (n <=? max_size) with true by (symmetry; apply Z.leb_le; unfold max_size; lia). rewrite EA.
    unfold MakeReprSized, Allocate. change (0 <=? max_allocation) with true. cbn [check]. rewrite C'. unfold set_allocated_capacity. unfold check at 1. destruct (header _ =? _) eqn:H; [|reflexivity]. unfold check at 1. destruct (_ <? _); [|reflexivity].
    unfold allocated_data. unfold check at 1. destruct (negb _); [|reflexivity]. cbn [advance write]. unfold store. destruct (Z.eq_dec (base (place E h 0 + 2 * Z.of_nat 8)) (place E h 0)) as [B|B].
    + rewrite B. cbn [find_block]. rewrite Z.eqb_refl. cbn [zlen length]. unfold check. replace (_ && _) with false; [reflexivity|]. symmetry. apply andb_false_iff. right. apply Z.leb_gt. apply Z.eqb_eq in H. rewrite H. cbn. lia.
    + exfalso. apply B. unfold base. apply Z.eqb_eq in H. rewrite H. lia.
Qed.

(** ** Examples *)
(** An allocator which gives the first address [16 * k] which is not in use, with zeros there *)
Definition free_at (h : heap) (k : nat) : bool := negb (existsb (fun e => fst e =? 16 * Z.of_nat k) h).
Definition first_free (h : heap) : nat := match find (free_at h) (seq 1 (S (length h))) with Some k => k | None => 0 end.
Definition plain : env := {| place := fun h _ => 16 * Z.of_nat (first_free h); contents := fun _ n => zeros n |}.
Lemma first_free_ok h : (1 <= first_free h <= S (length h))%nat /\ free_at h (first_free h) = true.
Proof.
  unfold first_free. destruct (find (free_at h) (seq 1 (S (length h)))) as [k|] eqn:F; [apply List.find_some in F; rewrite in_seq in F; split; [lia|tauto]|]. exfalso.
  assert (I : incl (map (fun k => 16 * Z.of_nat k) (seq 1 (S (length h)))) (map fst h)).
  { intros x X. apply in_map_iff in X. destruct X as (k & <- & K). pose proof (List.find_none _ _ F k K) as Q. unfold free_at in Q. apply negb_false_iff, existsb_exists in Q. destruct Q as (e & IE & Q). apply Z.eqb_eq in Q. rewrite <- Q. now apply in_map. }
  apply NoDup_incl_length in I; [rewrite !map_length, seq_length in I; lia|]. apply FinFun.Injective_map_NoDup; [intros a b; lia|apply seq_NoDup].
Qed.
Lemma plain_ok : platform_ok plain.
Proof.
  intros h n L N. pose proof (first_free_ok h) as (K & F). unfold plain, max_strings in *. unfold zlen in L. cbn [place contents]. split.
  - intros l I. unfold free_at in F. apply negb_true_iff in F. assert (X : existsb (fun e => fst e =? 16 * Z.of_nat (first_free h)) h = true) by (apply existsb_exists; eexists; split; [exact I|apply Z.eqb_refl]). congruence.
  - split; [lia|]. split; [|split; [lia|split; [rewrite zlen_zeros; lia|apply bytes_zeros]]]. replace (16 * Z.of_nat (first_free h)) with (2 * Z.of_nat (first_free h) * 8) by lia. apply Z.mod_mul. lia.
Qed.
Definition byte_b (b : Z) : bool := (0 <=? b) && (b <? 256).
Definition there_b (w : world) (i : nat) : bool := Nat.ltb i (length (reprs w)).
Definition fits_b (n : Z) : bool := (0 <=? n) && (n <=? limit).
(** A part of what is allowed *)
Definition allowed_b (w : world) (o : op) : bool :=
  let len (i : nat) := zlen (str (strings_of w) i) in
  match o with
  | New => zlen (reprs w) <? max_strings
  | NewSize s | NewFrom s | NewForCStr s => (zlen (reprs w) <? max_strings) && forallb byte_b s && fits_b (zlen s)
  | NewCopy i => (zlen (reprs w) <? max_strings) && there_b w i
  | Destroy i | ShrinkToFit i | CStr i => there_b w i
  | Assign_ i s => there_b w i && forallb byte_b s && fits_b (zlen s)
  | AssignSelf i off n => there_b w i && (0 <=? off) && (0 <=? n) && (off + n <=? len i)
  | AssignCopy_ i j | Move i j => there_b w i && there_b w j
  | SetSize i n fill => there_b w i && fits_b n && (n <=? capacity_of w i) && forallb byte_b fill && (zlen fill =? n - Z.min n (len i))
  | Resize i n fill => there_b w i && fits_b n && forallb byte_b fill && (zlen fill =? n - Z.min n (len i))
  | ResizeUsed i n used fill => there_b w i && fits_b n && (0 <=? used) && (used <=? len i) && (used <=? n) && forallb byte_b fill && (zlen fill =? n - used)
  | Reserve i n => there_b w i && fits_b n
  | AppendLength i s | Append i s => there_b w i && forallb byte_b s && fits_b (len i + zlen s)
  | AppendSelf i off n => there_b w i && (0 <=? off) && (0 <=? n) && (off + n <=? len i) && fits_b (len i + n)
  | SetChar i k b => there_b w i && (0 <=? k) && (k <? len i) && byte_b b
  end.
Lemma byte_b_ok s : forallb byte_b s = true -> bytes s.
Proof. intros F. rewrite forallb_forall in F. apply Forall_forall. intros x X. specialize (F x X). unfold byte_b in F. apply andb_true_iff in F. destruct F as (A & B). apply Z.leb_le in A. apply Z.ltb_lt in B. split; assumption. Qed.
Lemma allowed_b_ok w o : allowed_b w o = true -> allowed w o.
Proof.
  destruct o; cbn [allowed_b allowed]; unfold fits_b, fits, there_b, there, byte_b; rewrite ?andb_true_iff, ?Z.leb_le, ?Z.ltb_lt, ?Z.eqb_eq, ?Nat.ltb_lt; intros A;
    repeat match goal with A : _ /\ _ |- _ => destruct A end; repeat match goal with A : forallb _ _ = true |- _ => apply byte_b_ok in A end; unfold is_byte; repeat split; assumption.
Qed.
Fixpoint run_allowed (E : env) (w : world) (ops : list op) : option world :=
  match ops with [] => Some w | o :: ops => if allowed_b w o then match exec E w o with Some w => run_allowed E w ops | None => None end else None end.
Lemma run_allowed_reachable E ops : forall w w', reachable E w -> run_allowed E w ops = Some w' -> reachable E w'.
Proof.
  induction ops as [|o ops IH]; intros w w' R X; cbn [run_allowed] in X; [now injection X as <-|]. destruct (allowed_b w o) eqn:A; [|discriminate]. destruct (exec E w o) as [w1|] eqn:Y; [|discriminate].
  apply (IH w1 w'); [|exact X]. exact (reach_call E w o w1 R (allowed_b_ok w o A) Y).
Qed.
(** A program which has all three lengths of the header, and a string in place *)
Definition program : list op :=
  [NewFrom [1; 2; 3]; NewCopy 0; Append 0 [4; 5; 6; 7]; CStr 0; AppendSelf 0 1 5; NewSize (repeat 9 300); AssignCopy_ 1 2; Append 1 (repeat 8 70000); ShrinkToFit 2; AssignSelf 1 299 2; ShrinkToFit 1;
   Reserve 0 1000; SetChar 0 0 255; Resize 0 14 [11; 12]; NewForCStr (repeat 5 7); Move 2 0; AssignCopy_ 3 3; ResizeUsed 3 9 2 (repeat 6 7); SetSize 3 1 []; AppendLength 3 [0]; New; Move 2 2; Destroy 1].
Example program_strings : exists w, run_allowed plain start program = Some w /\ reachable plain w /\
  strings_of w = [[]; []; [255; 2; 3; 4; 5; 6; 7; 2; 3; 4; 5; 6; 11; 12]; [5; 0]; []] /\ length (wheap w) = 2%nat.
Proof.
  destruct (run_allowed plain start program) as [w|] eqn:X; [|vm_compute in X; discriminate]. exists w. split; [reflexivity|]. split; [exact (run_allowed_reachable _ _ _ _ (reach_start _) X)|].
  vm_compute in X. injection X as <-. split; vm_compute; reflexivity.
Qed.

Print Assumptions CompactString_call.
Print Assumptions CompactString_read.
Print Assumptions CompactString_reserve.
Print Assumptions CompactString_c_str.
Print Assumptions CompactString_compare.
Print Assumptions CompactString_no_leak.
Print Assumptions CompactString_max_size_fails.
