(** Decoding transposed chunks ends on all inputs, and what is decoded are records. *)
From Verif Require Import Base.Bytes Model.Endian Model.Varint Model.Block Model.Chunk Model.SimpleChunk Model.ChunkDecoder Model.TransposeEncoder Model.TransposeDecoder.
From Verif Require Import Spec.RecordsSpec Proof.SimpleChunkProof Proof.DecoderProof Proof.TransposePath Proof.TransposeLoops.

Section Loops.
Variable nodes : list node.

(** Following implicit transitions from [i] ends after at most [k] of them. *)
Fixpoint ends_in (k i : nat) : Prop :=
  match nth_error nodes i with
  | None => True
  | Some n => if n_implicit n then match k with O => False | S k => (n_next n < length nodes)%nat /\ ends_in k (n_next n) end else True
  end.
Definition finite i := exists k, ends_in k i.
Lemma ends_mono k : forall i k', (k <= k')%nat -> ends_in k i -> ends_in k' i.
Proof.
  induction k as [|k IH]; intros i k' L H; destruct k' as [|k']; try lia; cbn [ends_in] in *; destruct (nth_error nodes i) as [n|]; try exact Logic.I; destruct (n_implicit n); try exact Logic.I.
  all: try contradiction.
  - destruct H as [H1 H2]. split; [exact H1|]. apply (IH (n_next n) k' ltac:(lia) H2).
Qed.
Fixpoint steps (k i : nat) : nat :=
  match k with
  | O => O
  | S k => match nth_error nodes i with Some n => if n_implicit n then S (steps k (n_next n)) else O | None => O end
  end.
Lemma steps_stable k : forall i k', ends_in k i -> (k <= k')%nat -> steps k' i = steps k i.
Proof.
  induction k as [|k IH]; intros i k' H L; cbn [ends_in] in H.
  - destruct k' as [|k']; [reflexivity|]. cbn [steps]. destruct (nth_error nodes i) as [n|]; [|reflexivity]. destruct (n_implicit n); [contradiction|reflexivity].
  - destruct k' as [|k']; [lia|]. cbn [steps]. destruct (nth_error nodes i) as [n|]; [|reflexivity]. destruct (n_implicit n); [|reflexivity]. f_equal. apply IH; [apply H|lia].
Qed.
Lemma ranks : (forall i, (i < length nodes)%nat -> finite i) ->
  exists rank, forall i n, nth_error nodes i = Some n -> n_implicit n = true -> (n_next n < length nodes)%nat /\ (rank (n_next n) < rank i)%nat.
Proof.
  intros F. assert (G : forall m, (m <= length nodes)%nat -> exists N, forall i, (i < m)%nat -> ends_in N i).
  { induction m as [|m IH]; intros M; [exists O; lia|]. destruct (IH ltac:(lia)) as [N HN]. destruct (F m ltac:(lia)) as [k K]. exists (Nat.max N k). intros i I.
    destruct (Nat.eq_dec i m) as [->|]; [apply (ends_mono k); [lia|exact K]|apply (ends_mono N); [lia|apply HN; lia]]. }
  destruct (G (length nodes) ltac:(lia)) as [N HN]. exists (steps N). intros i n E I. assert (L : (i < length nodes)%nat) by (apply nth_error_Some; congruence).
  pose proof (HN i L) as H. destruct N as [|N]; cbn [ends_in] in H; rewrite E, I in H; [contradiction|]. destruct H as [H1 H2]. split; [exact H1|].
  replace (steps (S N) i) with (S (steps N (n_next n))) by (cbn [steps]; rewrite E, I; reflexivity). rewrite (steps_stable N (n_next n) (S N) H2) by lia. lia.
Qed.

Definition zero_ids (ids : list nat) : nat := length (filter (Nat.eqb 0) ids).
Lemma zero_update ids : forall j id ids', nth_error ids j = Some O -> update j (fun _ => S id) ids = Some ids' -> zero_ids ids = S (zero_ids ids').
Proof.
  induction ids as [|x ids IH]; intros j id ids'; [destruct j; discriminate|]. destruct j as [|j]; cbn [nth_error update].
  - intros E U. injection E as ->. injection U as <-. reflexivity.
  - intros E U. destruct (update j (fun _ => S id) ids) as [l|] eqn:U1; [|discriminate U]. injection U as <-. unfold zero_ids in *. cbn [filter]. pose proof (IH j id l E U1) as Q. destruct (0 =? x)%nat; cbn [length]; lia.
Qed.
Lemma follow_fuel id fuel : forall out i ids, (zero_ids ids < fuel)%nat -> follow_implicit out fuel nodes (S id) i ids = follow_implicit None fuel nodes (S id) i ids.
Proof.
  induction fuel as [|fuel IH]; intros out i ids L; [lia|]. cbn [follow_implicit]. destruct (nth_error nodes i) as [n|]; [|reflexivity]. destruct (n_implicit n); [|reflexivity].
  destruct (nth_error ids (n_next n)) as [x|] eqn:E; [|reflexivity]. destruct (Nat.eqb x (S id)); [reflexivity|]. destruct (Nat.eqb_spec x 0) as [->|]; [|reflexivity]. cbn [negb].
  destruct (update (n_next n) (fun _ => S id) ids) as [ids'|] eqn:U; [|reflexivity]. apply IH. pose proof (zero_update ids _ id ids' E U). lia.
Qed.
Lemma zero_le ids : (zero_ids ids <= length ids)%nat.
Proof. apply filter_length_le. Qed.
Lemma follow_length out id fuel : forall i ids ids', out = None -> follow_implicit out fuel nodes id i ids = Some (false, ids') -> length ids' = length ids.
Proof.
  induction fuel as [|fuel IH]; intros i ids ids' O E; cbn [follow_implicit] in E; [congruence|]. destruct (nth_error nodes i) as [n|]; [|discriminate E].
  destruct (n_implicit n); [|injection E as <-; reflexivity]. destruct (nth_error ids (n_next n)) as [x|]; [|discriminate E]. destruct (Nat.eqb x id); [discriminate E|].
  destruct (negb (Nat.eqb x 0)); [injection E as <-; reflexivity|]. destruct (update (n_next n) (fun _ => id) ids) as [l|] eqn:U; [|discriminate E].
  rewrite (IH _ _ _ O E). apply (update_spec _ _ _ _ U).
Qed.
Lemma implicit_fuel out n : forall i id ids, length ids = length nodes -> implicit_loop out n i (S id) nodes ids = implicit_loop None n i (S id) nodes ids.
Proof.
  induction n as [|n IH]; intros i id ids L; [reflexivity|]. cbn [implicit_loop]. destruct (nth_error ids i) as [[|x]|] eqn:E; [|apply IH; exact L|reflexivity].
  destruct (update i (fun _ => S id) ids) as [ids1|] eqn:U; [|reflexivity]. destruct (update_spec _ _ _ _ U) as (L1 & _).
  rewrite (follow_fuel id (S (length nodes)) out) by (pose proof (zero_le ids1); lia).
  destruct (follow_implicit None (S (length nodes)) nodes (S id) i ids1) as [[[|] ids2]|] eqn:F; try reflexivity. apply IH. rewrite (follow_length None _ _ _ _ _ eq_refl F). lia.
Qed.
Lemma contains_fuel out : ContainsImplicitLoop out nodes = ContainsImplicitLoop None nodes.
Proof. apply implicit_fuel. apply repeat_length. Qed.

Lemma follow_sound id fuel : forall i ids ids', length ids = length nodes -> (forall j x, nth_error ids j = Some x -> x <> O -> x <> id -> finite j) ->
  follow_implicit None fuel nodes id i ids = Some (false, ids') ->
  finite i /\ (forall j x, nth_error ids' j = Some x -> x <> O -> (nth_error ids j = Some x) \/ (x = id /\ finite j)).
Proof.
  induction fuel as [|fuel IH]; intros i ids ids' L OLD E; cbn [follow_implicit] in E; [discriminate E|]. destruct (nth_error nodes i) as [n|] eqn:N; [|discriminate E].
  destruct (n_implicit n) eqn:IM.
  2: { injection E as <-. split; [exists O; cbn [ends_in]; rewrite N, IM; exact Logic.I|auto]. }
  destruct (nth_error ids (n_next n)) as [x|] eqn:X; [|discriminate E]. assert (NL : (n_next n < length nodes)%nat) by (rewrite <- L; apply nth_error_Some; congruence).
  assert (STEP : finite (n_next n) -> finite i) by (intros [k K]; exists (S k); cbn [ends_in]; rewrite N, IM; auto).
  destruct (Nat.eqb_spec x id) as [|NI]; [discriminate E|]. destruct (Nat.eqb_spec x 0) as [->|NZ]; cbn [negb] in E.
  2: { injection E as <-. split; [apply STEP, (OLD _ _ X NZ NI)|auto]. }
  destruct (update (n_next n) (fun _ => id) ids) as [ids1|] eqn:U; [|discriminate E]. destruct (update_spec _ _ _ _ U) as (L1 & _ & O1 & y & _ & Y).
  destruct (IH (n_next n) ids1 ids' ltac:(lia)) as [F1 F2]; [|exact E|].
  - intros j z Z1 Z2 Z3. destruct (Nat.eq_dec j (n_next n)) as [->|D]; [congruence|]. apply (OLD j z); [rewrite <- (O1 j D); exact Z1|exact Z2|exact Z3].
  - split; [apply STEP, F1|]. intros j z Z1 Z2. destruct (F2 j z Z1 Z2) as [H|H]; [|right; exact H]. destruct (Nat.eq_dec j (n_next n)) as [->|D]; [|left; rewrite <- (O1 j D); exact H].
    right. split; [congruence|exact F1].
Qed.
Lemma implicit_sound n : forall i id ids, length ids = length nodes -> (forall j x, nth_error ids j = Some x -> x <> O -> (x < id)%nat /\ finite j) -> (0 < id)%nat ->
  implicit_loop None n i id nodes ids = Some false -> forall j, (i <= j < i + n)%nat -> finite j.
Proof.
  induction n as [|n IH]; intros i id ids L OLD I0 E j J; [lia|]. cbn [implicit_loop] in E. destruct (nth_error ids i) as [[|x]|] eqn:X; [| |discriminate E].
  - destruct (update i (fun _ => id) ids) as [ids1|] eqn:U; [|discriminate E]. destruct (update_spec _ _ _ _ U) as (L1 & _ & O1 & y & _ & Y).
    destruct (follow_implicit None (S (length nodes)) nodes id i ids1) as [[[|] ids2]|] eqn:F; try discriminate E.
    assert (OLD1 : forall j x, nth_error ids1 j = Some x -> x <> O -> x <> id -> finite j).
    { intros k z Z1 Z2 Z3. destruct (Nat.eq_dec k i) as [->|D]; [congruence|]. apply (OLD k z); [rewrite <- (O1 k D); exact Z1|exact Z2]. }
    destruct (follow_sound id _ i ids1 ids2 ltac:(lia) OLD1 F) as [F1 F2].
    destruct (Nat.eq_dec j i) as [->|D]; [exact F1|]. apply (IH (S i) (S id) ids2); [rewrite (follow_length None _ _ _ _ _ eq_refl F); lia| |lia|exact E|lia].
    intros k z Z1 Z2. destruct (F2 k z Z1 Z2) as [H|[-> H]]; [|split; [lia|exact H]]. destruct (Nat.eq_dec k i) as [->|D2]; [rewrite Y in H; injection H as <-; split; [lia|exact F1]|].
    rewrite (O1 k D2) in H. destruct (OLD k z H Z2). split; [lia|assumption].
  - destruct (Nat.eq_dec j i) as [->|D]; [apply (OLD i (S x) X); discriminate|]. apply (IH (S i) id ids L OLD I0 E); lia.
Qed.
Lemma contains_sound : ContainsImplicitLoop None nodes = Some false -> forall i, (i < length nodes)%nat -> finite i.
Proof.
  intros E i I. apply (implicit_sound (length nodes) 0 1 (repeat O (length nodes))); [apply repeat_length| |lia|exact E|lia].
  intros j x X NZ. apply nth_error_In in X. apply repeat_spec in X. contradiction.
Qed.

(** The loop of Decode *)
Variable rank : nat -> nat.
Hypothesis ranked : forall i n, nth_error nodes i = Some n -> n_implicit n = true -> (n_next n < length nodes)%nat /\ (rank (n_next n) < rank i)%nat.
Notation crank := (crank nodes rank).
Definition imp (i : nat) : Z := if match nth_error nodes i with Some n => n_implicit n | None => false end then 1 else 0.
Lemma imp_range i : imp i = 0 \/ imp i = 1.
Proof. unfold imp. destruct (match nth_error nodes i with Some n => n_implicit n | None => false end); auto. Qed.
Lemma loop_fuel out num_records max_size lengths fuel : forall i num_iters transitions g, 0 <= num_iters - imp i <= 3 ->
  ((4 * length transitions + Z.to_nat (num_iters - imp i)) * (length nodes + 1) + crank i < fuel)%nat ->
  decode_loop out fuel num_records max_size lengths nodes i num_iters transitions g = decode_loop None fuel num_records max_size lengths nodes i num_iters transitions g.
Proof.
  induction fuel as [|fuel IH]; intros i num_iters transitions g E L; [lia|]. cbn [decode_loop]. destruct (nth_error nodes i) as [n|] eqn:N; [|reflexivity].
  destruct (HandleNode num_records max_size lengths (n_callback n) g) as [g1|]; [|reflexivity].
  assert (IM : imp i = if n_implicit n then 1 else 0) by (unfold imp; rewrite N; reflexivity).
  destruct (Z.eqb_spec num_iters 0) as [->|NZ].
  - destruct transitions as [|byte transitions]; [reflexivity|]. set (j := (n_next n + Z.to_nat (Z.shiftr byte 2))%nat). fold (imp j).
    assert (B : 0 <= Z.land byte 3 <= 3) by (change 3 with (Z.ones 2); rewrite Z.land_ones by lia; change (2 ^ 2) with 4; change (Z.ones 2) with 3; pose proof (Z.mod_pos_bound byte 4); lia).
    apply IH; [lia|]. replace (Z.land byte 3 + imp j - imp j) with (Z.land byte 3) by lia. pose proof (crank_le nodes rank ranked j) as CL. cbn [length] in L.
    assert (Z.to_nat (Z.land byte 3) <= 3)%nat by lia. nia.
  - fold (imp (n_next n)). set (j := n_next n) in *.
    replace (num_iters - (if match nth_error nodes j with Some n0 => n_implicit n0 | None => false end then 0 else 1)) with (num_iters - 1 + imp j) by (unfold imp; destruct (match nth_error nodes j with Some n0 => n_implicit n0 | None => false end); lia).
    apply IH; [pose proof (imp_range i); lia|]. replace (num_iters - 1 + imp j - imp j) with (num_iters - 1) by lia. destruct (n_implicit n) eqn:NI.
    + destruct (ranked i n N NI) as [R1 R2]. fold j in R1, R2. pose proof (crank_lt nodes rank ranked i j R1 R2). rewrite IM in *. lia.
    + rewrite IM in *. pose proof (crank_le nodes rank ranked j). replace (Z.to_nat (num_iters - 0)) with (S (Z.to_nat (num_iters - 1))) in L by lia. nia.
Qed.
End Loops.

Lemma parse_loop decompress src x : Parse decompress None src = Some x -> ContainsImplicitLoop None (x_nodes x) = Some false.
Proof.
  unfold Parse. intros E. repeat match type of E with
  | match ContainsImplicitLoop None ?n with _ => _ end = _ => destruct (ContainsImplicitLoop None n) as [[|]|] eqn:CL; try discriminate E
  | (if ?c then _ else _) = _ => destruct c; try discriminate E
  | match ?c with _ => _ end = _ => destruct c; try discriminate E
  | (let '(_, _) := ?c in _) = _ => destruct c
  end. all: injection E as <-; cbn [x_nodes]; exact CL.
Qed.
Lemma parse_fuel decompress out src : Parse decompress out src = Parse decompress None src.
Proof.
  unfold Parse. repeat match goal with
  | |- context [ContainsImplicitLoop out ?n] => rewrite (contains_fuel n out)
  | |- (if ?c then _ else _) = _ => destruct c; try reflexivity
  | |- match ?c with _ => _ end = _ => destruct c; try reflexivity
  end.
Qed.
Lemma decode_fuel_ok decompress out1 out2 src num_records size : TransposeDecodeOut decompress out1 out2 src num_records size = TransposeDecode decompress src num_records size.
Proof.
  unfold TransposeDecode, TransposeDecodeOut. rewrite (parse_fuel decompress out1). destruct (Parse decompress None src) as [x|] eqn:P; [|reflexivity].
  destruct (ranks (x_nodes x) (contains_sound (x_nodes x) (parse_loop decompress src x P))) as [rank R].
  rewrite (loop_fuel (x_nodes x) rank R out2); [reflexivity| |]; fold (imp (x_nodes x) (x_first x)).
  - lia.
  - rewrite Z.sub_diag. change (Z.to_nat 0) with O. unfold decode_fuel. pose proof (crank_le (x_nodes x) rank R (x_first x)). lia.
Qed.

(** What is decoded *)
Fixpoint desc (top : Z) (l : list Z) : Prop := match l with [] => True | x :: l => 0 <= x <= top /\ desc x l end.
Lemma desc_mono top top' l : top <= top' -> desc top l -> desc top' l.
Proof. destruct l as [|x l]; [auto|]. intros L [H1 H2]. split; [lia|exact H2]. Qed.
Definition limits_ok (g : decoding) : Prop := desc (zlen (g_dest g)) (g_limits g).
Lemma write_ok max_size data g g' : write_dest max_size data g = Some g' -> limits_ok g -> limits_ok g'.
Proof.
  unfold write_dest, limits_ok. destruct (max_size <? _); [discriminate|]. intros E; injection E as <-. cbn [g_dest g_limits]. apply desc_mono. rewrite zlen_app. pose proof (zlen_nonneg data). lia.
Qed.
Lemma read_ok buffer n g d g' : read_data buffer n g = Some (d, g') -> limits_ok g -> limits_ok g'.
Proof.
  unfold read_data. destruct (nth_error (g_buffers g) buffer); [|discriminate]. destruct (zlen l <? n); [discriminate|]. destruct (update buffer (zdrop n) (g_buffers g)); [|discriminate].
  intros E; injection E as _ <-. exact (fun H => H).
Qed.
Lemma start_ok num_records g g' : MessageStartCallback num_records g = Some g' -> limits_ok g -> limits_ok g'.
Proof.
  unfold MessageStartCallback, limits_ok. destruct (g_stack g); [|discriminate]. destruct (zlen (g_limits g) =? num_records); [discriminate|]. intros E; injection E as <-. cbn [g_dest g_limits desc].
  intros H. pose proof (zlen_nonneg (g_dest g)). split; [lia|exact H].
Qed.
Lemma handle_ok num_records max_size lengths c g g' : HandleNode num_records max_size lengths c g = Some g' -> limits_ok g -> limits_ok g'.
Proof.
  intros E OK. destruct c; cbn [HandleNode] in E.
  - injection E as <-. exact OK.
  - exact (start_ok _ _ _ E OK).
  - destruct (g_stack g) as [|[e t] stack]; [discriminate E|]. destruct (2 ^ 32 - 1 <? _); [discriminate E|]. exact (write_ok _ _ _ _ E OK).
  - injection E as <-. exact OK.
  - destruct lengths as [i|]; [|discriminate E]. destruct (nth_error (g_buffers g) i) as [data|]; [|discriminate E]. destruct (ReadVarint V32 data) as [[len rest]|]; [|discriminate E].
    destruct (update i (fun _ => rest) (g_buffers g)) as [bs|]; [|discriminate E]. destruct (read_data buffer len (set_buffers bs g)) as [[d g1]|] eqn:R; [|discriminate E].
    destruct (write_dest max_size d g1) as [g2|] eqn:W; [|discriminate E]. apply (start_ok _ _ _ E), (write_ok _ _ _ _ W), (read_ok _ _ _ _ _ R). exact OK.
  - discriminate E.
  - exact (write_ok _ _ _ _ E OK).
  - destruct (read_data buffer length g) as [[d g1]|] eqn:R; [|discriminate E]. exact (write_ok _ _ _ _ E (read_ok _ _ _ _ _ R OK)).
  - destruct (read_data buffer length g) as [[d g1]|] eqn:R; [|discriminate E]. exact (write_ok _ _ _ _ E (read_ok _ _ _ _ _ R OK)).
  - destruct (nth_error (g_buffers g) buffer) as [data|]; [|discriminate E]. destruct (ReadVarintArray V32 false data) as [| |v n]; try discriminate E. destruct (_ <? v); [discriminate E|].
    destruct (read_data buffer (Z.of_nat n + v) g) as [[d g1]|] eqn:R; [|discriminate E]. destruct (write_dest max_size d g1) as [g2|] eqn:W; [|discriminate E].
    exact (write_ok _ _ _ _ E (write_ok _ _ _ _ W (read_ok _ _ _ _ _ R OK))).
Qed.
Lemma loop_ok num_records max_size lengths nodes fuel : forall i num_iters transitions g g',
  decode_loop None fuel num_records max_size lengths nodes i num_iters transitions g = Some g' -> limits_ok g -> limits_ok g'.
Proof.
  induction fuel as [|fuel IH]; intros i num_iters transitions g g' E OK; cbn [decode_loop] in E; [discriminate E|]. destruct (nth_error nodes i) as [n|]; [|discriminate E].
  destruct (HandleNode num_records max_size lengths (n_callback n) g) as [g1|] eqn:H; [|discriminate E]. pose proof (handle_ok _ _ _ _ _ _ H OK) as OK1.
  destruct (num_iters =? 0); [destruct transitions as [|byte transitions]; [injection E as <-; exact OK1|]|]; exact (IH _ _ _ _ _ E OK1).
Qed.
Lemma cut_records size rest : forall start values, desc (zlen values) rest -> size = start + zlen values ->
  exists rs, ends start rs = map (fun limit => size - limit) rest ++ [size] /\ concat rs = values.
Proof.
  induction rest as [|x rest IH]; intros start values D SZ; cbn [map app].
  - exists [values]. cbn [ends concat]. rewrite app_nil_r. split; [f_equal; lia|reflexivity].
  - destruct D as [D1 D2]. assert (ZL : zlen (zdrop (zlen values - x) values) = x) by (rewrite zlen_zdrop; lia).
    destruct (IH (size - x) (zdrop (zlen values - x) values)) as (rs & R1 & R2); [rewrite ZL; exact D2|rewrite ZL; lia|].
    exists (ztake (zlen values - x) values :: rs). cbn [ends concat]. rewrite R2, ztake_zdrop, zlen_ztake. replace (start + Z.max 0 (Z.min (zlen values - x) (zlen values))) with (size - x) by lia. rewrite R1. split; reflexivity.
Qed.
Lemma decode_sound decompress src num_records size limits dest : TransposeDecode decompress src num_records size = Some (limits, dest) ->
  exists rs, limits = ends 0 rs /\ dest = concat rs /\ zlen rs = num_records /\ total rs = size.
Proof.
  unfold TransposeDecode, TransposeDecodeOut. destruct (Parse decompress None src) as [x|]; [|discriminate]. destruct (decode_loop None _ _ _ _ _ _ _ _ _) as [g|] eqn:L; [|discriminate].
  assert (OK : limits_ok g) by (apply (loop_ok _ _ _ _ _ _ _ _ _ _ L); exact Logic.I).
  destruct (Finish num_records g) as [[l d]|] eqn:F; [|discriminate]. destruct (Z.eqb_spec (zlen d) size) as [SZ|]; [|discriminate]. intros E; injection E as <- <-.
  unfold Finish in F. destruct (g_stack g); [|discriminate F]. destruct (Z.eqb_spec (zlen (g_limits g)) num_records) as [N|]; [|discriminate F]. cbn [negb] in F.
  unfold limits_ok in OK. destruct (g_limits g) as [|top rest] eqn:GL.
  - destruct (Z.eqb_spec 0 (zlen (g_dest g))) as [Z0|]; [|discriminate F]. injection F as <- <-. exists []. assert (D0 : g_dest g = []) by (clear - Z0; destruct (g_dest g) as [|b bs]; [reflexivity|rewrite zlen_cons in Z0; pose proof (zlen_nonneg bs); lia]).
    rewrite D0 in *. repeat split; assumption.
  - destruct (Z.eqb_spec top (zlen (g_dest g))) as [T|]; [|discriminate F]. injection F as <- <-. destruct OK as [_ D]. rewrite T in D.
    destruct (cut_records top rest 0 (g_dest g) D T) as (rs & R1 & R2). exists rs. split; [symmetry; exact R1|]. split; [symmetry; exact R2|]. split.
    + rewrite <- (zlen_ends 0 rs), R1, zlen_app, zlen_map, <- N, (zlen_cons top rest). change (zlen [top]) with 1. lia.
    + unfold total. rewrite R2. exact SZ.
Qed.

Lemma decode_transposed decompress c dec : ch_chunk_type (c_header c) = kTransposed -> Decode decompress (TransposeDecode decompress) c = (true, dec) ->
  exists rs, dec = holds rs 0 /\ zlen rs = ch_num_records (c_header c) /\ total rs = ch_decoded_data_size (c_header c).
Proof.
  intros T E. unfold Decode, ChunkDecoder.Parse in E. rewrite T in E. change (kTransposed =? kFileSignature) with false in E. change (kTransposed =? kFileMetadata) with false in E.
  change (kTransposed =? kPadding) with false in E. change (kTransposed =? kSimple) with false in E. change (kTransposed =? kTransposed) with true in E. cbv iota in E.
  destruct (TransposeDecode decompress (c_data c) (ch_num_records (c_header c)) (ch_decoded_data_size (c_header c))) as [[limits values]|] eqn:D; [|discriminate E]. injection E as <-.
  destruct (decode_sound _ _ _ _ _ _ D) as (rs & -> & -> & N & S0). exists rs. split; [reflexivity|]. split; assumption.
Qed.

Lemma transposed_arbitrary decompress c dec : ch_chunk_type (c_header c) = kTransposed -> Decode decompress (TransposeDecode decompress) c = (true, dec) ->
  exists rs, zlen rs = ch_num_records (c_header c) /\ total rs = ch_decoded_data_size (c_header c) /\
    (exists d, ReadAllRecords (S (length rs)) dec = Some (rs, d)) /\
    (forall j, 0 <= j -> exists d d', SetIndex j dec = Some d /\ ReadAllRecords (S (length rs)) d = Some (zdrop j rs, d')).
Proof.
  intros K E. destruct (decode_transposed decompress c dec K E) as (rs & -> & LN & A). exists rs. split; [exact LN|]. split; [exact A|]. split.
  { exists (holds rs (zlen rs)). apply (ReadAllRecords_holds rs (S (length rs)) 0); unfold zlen; lia. }
  intros j J. exists (holds rs (Z.min j (zlen rs))), (holds rs (zlen rs)). split; [apply SetIndex_holds, J|].
  pose proof (zlen_nonneg rs). rewrite ReadAllRecords_holds by (unfold zlen in *; lia). do 2 f_equal.
  destruct (Z.le_gt_cases j (zlen rs)); [f_equal; lia|]. rewrite !zdrop_all by lia. reflexivity.
Qed.
