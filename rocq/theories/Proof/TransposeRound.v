(** Encoding records into a transposed chunk and decoding it. *)
From Coq Require Import Permutation.
From Verif Require Import Base.Bytes Model.Endian Model.Varint Model.Chunk Model.SimpleChunk Model.TransposeEncoder Model.TransposeDecoder.
From Verif Require Import Spec.VarintSpec Spec.RecordsSpec Proof.CodecLemmas Proof.VarintProof Proof.SimpleChunkProof.
From Verif Require Import Proof.TransposeColumns Proof.TransposeMessages Proof.TransposeBuffers Proof.TransposePath Proof.TransposeLoops Proof.TransposeStates Proof.TransposeMachine.

(** ** The states can be written *)
Definition short (c : columns) (l : list Z) : Prop := l = [] \/ exists i, l = [i] /\ 0 <= i < zlen (buffer_ids c).
Lemma node_fields_total c id st : wf c -> In (id, st) (c_tags c) ->
  exists tag subtypes buffers, node_fields c id st = Some (tag, subtypes, buffers) /\ short c buffers.
Proof.
  intros W HI. pose proof (proj1 (Forall_forall _ _) (wf_tags _ W) _ HI) as G. pose proof (proj1 (Forall_forall _ _) (wf_buf _ W) _ HI) as N. cbn [fst] in N.
  assert (B : needs_buffer (id, st) -> exists i, buffer_pos c id = Some i /\ short c [Z.of_nat i]).
  { intros Hn. destruct (find_index_in id (buffer_ids c)) as [i Hi]; [apply buffer_ids_incl; [exact W|]; apply N, Hn|]. exists i. rewrite buffer_pos_index. split; [exact Hi|].
    right. exists (Z.of_nat i). split; [reflexivity|]. destruct (find_index_some _ _ _ Hi) as (? & _ & _ & L). unfold zlen. lia. }
  assert (B0 : short c []) by (left; reflexivity).
  clear HI N. destruct id as [parent tag]. unfold node_fields, good_tag, needs_buffer, HasSubtype, HasDataBuffer, GetTagWireType, wVarint, wFixed32, wFixed64, wLengthDelimited, wStartGroup, wEndGroup, kVarintInline0, kLengthDelimitedString, kLengthDelimitedStartOfSubmessage, kLengthDelimitedEndOfSubmessage, kNonProto, kStartOfMessage in *. cbv zeta.
  destruct G as [(-> & -> & [-> | ->])|(T & [[M ST]|[[M ST]|[M ST]]])].
  - cbn [Z.eqb negb]. destruct B as (i & -> & BI); [left; auto|]. eexists _, _, _. split; [reflexivity|assumption].
  - cbn. eexists _, _, _. split; [reflexivity|assumption].
  - replace (tag =? 0) with false by (symmetry; apply Z.eqb_neq; lia). rewrite M. cbn [negb Z.eqb andb orb]. destruct (Z.ltb_spec st 10) as [L|L].
    + destruct B as (i & -> & BI); [right; split; [lia|left; lia]|]. eexists _, _, _. split; [reflexivity|assumption].
    + eexists _, _, _. split; [reflexivity|assumption].
  - replace (tag =? 0) with false by (symmetry; apply Z.eqb_neq; lia). subst st. destruct M as [M|[M|[M|M]]]; rewrite M; cbn [negb Z.eqb andb orb Pos.eqb].
    + destruct B as (i & -> & BI); [right; split; [lia|right; left; lia]|]. eexists _, _, _. split; [reflexivity|assumption].
    + eexists _, _, _. split; [reflexivity|assumption].
    + eexists _, _, _. split; [reflexivity|assumption].
    + destruct B as (i & -> & BI); [right; split; [lia|right; right; left; lia]|]. eexists _, _, _. split; [reflexivity|assumption].
  - replace (tag =? 0) with false by (symmetry; apply Z.eqb_neq; lia). rewrite M. cbn [negb Z.eqb andb orb Pos.eqb].
    destruct (Z.eqb_spec st 1) as [E1|E1]; [eexists _, _, _; split; [reflexivity|assumption]|]. destruct (Z.eqb_spec st 2) as [E2|E2]; [eexists _, _, _; split; [reflexivity|assumption]|].
    destruct (Z.eqb_spec st 0) as [E0|E0]; [|lia]. destruct B as (i & -> & BI); [right; split; [lia|right; right; right; lia]|]. eexists _, _, _. split; [reflexivity|assumption].
Qed.

Lemma states_to_write_total c tags size l : wf c ->
  Forall (fun s => match s_tag s with Some k => (k < length (c_tags c))%nat /\ (k < length tags)%nat | None => s_base s <> None end) l ->
  exists fields, states_to_write c tags size l = Some fields /\ length fields = length l /\ Forall (fun f => short c (w_buffer f)) fields.
Proof.
  intros W. induction 1 as [|s l H F (fields & E1 & E2 & E3)]; cbn [states_to_write]; [exists []; repeat split; constructor|].
  assert (X : exists f, state_to_write c tags size s = Some f /\ short c (w_buffer f)).
  { unfold state_to_write. destruct (s_tag s) as [k|].
    - destruct (nth_error (c_tags c) k) as [[id st]|] eqn:K; [|apply nth_error_None in K; lia]. destruct (nth_error tags k) as [t|] eqn:KT; [|apply nth_error_None in KT; lia].
      destruct (node_fields_total c id st W (nth_error_In _ _ K)) as (tag & subs & bufs & -> & LB). eexists. split; [reflexivity|exact LB].
    - destruct (s_base s) as [b|]; [|congruence]. eexists. split; [reflexivity|left; reflexivity]. }
  destruct X as (f & -> & LB). rewrite E1. exists (f :: fields). split; [reflexivity|]. split; [cbn [length]; lia|constructor; assumption].
Qed.

(** ** Columns of the records *)
Lemma wf_no_columns : wf no_columns.
Proof. constructor; cbn; try constructor. intros []. Qed.
Lemma sized_no_columns : sized no_columns 0 0 0.
Proof. unfold sized. cbn. lia. Qed.
Lemma starts_limits rs : forall pos T, T = pos + zlen (concat rs) -> 
  match map (fun s => T - s) (starts_of pos rs) with [] => [] | l :: rest => map (fun limit => l - limit) rest ++ [l] end = ends 0 rs.
Proof.
  assert (G : forall rs pos pos0 T, T = pos + zlen (concat rs) -> pos0 <= pos -> rs <> [] ->
    match map (fun s => T - s) (starts_of pos rs) with [] => [] | l :: rest => map (fun limit => (T - pos0) - limit) rest ++ [T - pos0] end = ends (pos - pos0) rs).
  { induction rs0 as [|r rs0 IH]; intros pos pos0 T E L N; [congruence|]. cbn [starts_of map ends]. cbn [concat] in E. rewrite zlen_app in E. pose proof (zlen_nonneg r).
    destruct rs0 as [|r2 rs0]; [cbn; cbn [concat] in E; change (zlen (@nil Z)) with 0 in E; f_equal; lia|].
    specialize (IH (pos + zlen r) pos0 T ltac:(lia) ltac:(lia) ltac:(discriminate)).
    cbn [starts_of map] in IH |- *. cbn [map app]. rewrite IH. cbn [ends]. f_equal; [lia|]. f_equal; [lia|]. f_equal; lia. }
  intros pos T E. destruct rs as [|r rs]; [reflexivity|]. specialize (G (r :: rs) pos pos T E ltac:(lia) ltac:(discriminate)). rewrite Z.sub_diag in G. exact G.
Qed.
Lemma starts_length pos rs : zlen (starts_of pos rs) = zlen rs.
Proof. revert pos. induction rs as [|r rs IH]; intros pos; cbn [starts_of]; [reflexivity|]. rewrite !zlen_cons, IH. reflexivity. Qed.

Definition has_lengths (c : columns) : bool := match c_lengths c with [] => false | _ => true end.
Lemma all_data_bufs c : wf c -> all_data c = bufs_of (buffer_ids c) (has_lengths c) c.
Proof. intros W. unfold all_data, bufs_of, has_lengths. rewrite (ordered_data c W). destruct (c_lengths c); reflexivity. Qed.
Lemma total_concat l : zlen (concat (map b_data l)) = total_size l.
Proof. induction l as [|b l IH]; [reflexivity|]. cbn [map concat]. rewrite zlen_app, IH, TransposeBuffers.total_cons. reflexivity. Qed.
Lemma total_perm l l' : Permutation l l' -> total_size l = total_size l'.
Proof. induction 1; rewrite ?TransposeBuffers.total_cons in *; try reflexivity; lia. Qed.
Lemma nonempty_le (l : list (list Z)) : Forall nonempty l -> zlen l <= zlen (concat l).
Proof. induction 1 as [|g l N F IH]; [reflexivity|]. cbn [concat]. rewrite zlen_cons, zlen_app. destruct g as [|x g]; [contradiction (N eq_refl)|]. rewrite zlen_cons. pose proof (zlen_nonneg g). lia. Qed.
Lemma in_concat_le (b : list Z) l : In b l -> zlen b <= zlen (concat l).
Proof. induction l as [|a l IH]; intros []; cbn [concat]; rewrite zlen_app; pose proof (zlen_nonneg (concat l)); pose proof (zlen_nonneg a); [subst; lia|]. specialize (IH H). lia. Qed.
Lemma all_data_size c p ns : wf c -> sized c p 0 ns -> zlen (concat (all_data c)) <= 11 * p /\ zlen (all_data c) <= 11 * p /\ Forall nonempty (all_data c) /\ Forall bytes (all_data c).
Proof.
  intros W (S1 & S2 & _). pose proof (ordered_perm c (wf_types c W)) as P.
  assert (F : Forall (fun b => b_data b <> [] /\ bytes (b_data b)) (ordered_buffers c)).
  { apply Forall_forall. intros b Hb. apply (Permutation_in _ P) in Hb. destruct (proj1 (Forall_forall _ _) (wf_data _ W) b Hb) as (_ & X & Y). auto. }
  assert (N : Forall nonempty (all_data c)).
  { unfold all_data. apply Forall_app. split; [apply Forall_map; eapply Forall_impl; [|exact F]; intros b [X _]; exact X|]. destruct (c_lengths c) as [|? ?]; repeat constructor; discriminate. }
  assert (L : zlen (concat (all_data c)) <= 11 * p).
  { unfold all_data. rewrite concat_app, zlen_app, total_concat, (total_perm _ _ P). destruct (c_lengths c) as [|x l]; [cbn [concat]; change (zlen (@nil Z)) with 0 in *; lia|]. cbn [concat]. rewrite app_nil_r. lia. }
  split; [exact L|]. split; [|split; [exact N|]].
  - pose proof (nonempty_le (all_data c) N). lia.
  - unfold all_data. apply Forall_app. split; [apply Forall_map; eapply Forall_impl; [|exact F]; intros b [_ X]; exact X|]. pose proof (wf_len _ W). destruct (c_lengths c); [constructor|]. constructor; [assumption|constructor].
Qed.

Lemma columns_ok rs : Forall bytes rs -> zlen rs + 2 * zlen (concat rs) < 2 ^ 29 ->
  exists c, add_records rs 0 0 no_columns = Some c /\ wf c /\ sized c (zlen (concat rs)) 0 (zlen rs) /\
    exists bufs, run (buffer_ids c) (has_lengths c) (zlen rs) (zlen (concat rs)) (rev (entries c)) {| g_buffers := all_data c; g_dest := []; g_stack := []; g_limits := [] |} =
      Some {| g_buffers := bufs; g_dest := concat rs; g_stack := []; g_limits := map (fun s => zlen (concat rs) - s) (starts_of 0 rs) |}.
Proof.
  intros B L. pose proof (zlen_nonneg rs) as L1. pose proof (zlen_nonneg (concat rs)) as L2.
  assert (SM : Forall (fun r => zlen r < 2 ^ 32) rs).
  { apply Forall_forall. intros r Hr. pose proof (in_concat_le r rs Hr). lia. }
  assert (G : forall ids, NoDup ids -> forall hl, exists c', add_records rs 0 0 no_columns = Some c' /\ wf c' /\
     Inv ids hl (zlen rs) (zlen (concat rs)) c' (concat rs) [] (starts_of 0 rs) /\ sized c' (zlen (concat rs)) 0 (zlen rs)).
  { intros ids ND hl. destruct (add_records_ok ids ND hl (zlen rs) (zlen (concat rs)) rs 0 0 no_columns [] [] B SM wf_no_columns) as (c & X1 & X2 & X3 & X4).
    - unfold kMaxNumRecords. lia.
    - lia.
    - apply Inv_start.
    - apply sized_no_columns.
    - exists c. split; [exact X1|]. split; [exact X2|]. split; [exact X3|exact X4]. }
  destruct (G [] (NoDup_nil _) false) as (c & E & W & _ & SZ). exists c. split; [exact E|]. split; [exact W|]. split; [exact SZ|].
  destruct (G (buffer_ids c) (buffer_ids_unique c W) (has_lengths c)) as (c' & E' & _ & I & _). rewrite E in E'. injection E' as <-.
  unfold Inv in I. specialize (I ltac:(split; [apply buffer_ids_incl, W|intros X; unfold has_lengths; destruct (c_lengths c); congruence]) [] [] bytes_nil).
  change (zlen (@nil Z)) with 0 in I. rewrite !app_nil_r, Z.add_0_r in I. cbn [at_end map] in I. rewrite <- all_data_bufs in I by exact W.
  eexists. apply I; [lia|rewrite starts_length; lia].
Qed.

(** ** The callbacks *)
Lemma run_is_callbacks ids hl nr ms l : forall g, run ids hl nr ms l g = run_callbacks nr ms (lens ids hl) (map (entry_callback ids) l) g.
Proof. induction l as [|e l IH]; intros g; [reflexivity|]. cbn [run map run_callbacks]. unfold handle. destruct (HandleNode _ _ _ _ _); [apply IH|reflexivity]. Qed.
Definition nonproto_callback (c : callback) : bool := match c with CNonProto _ => true | _ => false end.
Lemma run_lengths nr ms a b l : (existsb nonproto_callback l = true -> a = b) -> forall g, run_callbacks nr ms a l g = run_callbacks nr ms b l g.
Proof.
  induction l as [|c l IH]; intros H g; [reflexivity|]. cbn [run_callbacks existsb] in *.
  destruct (nonproto_callback c) eqn:E; [cbn [orb] in H; rewrite (H eq_refl); reflexivity|]. cbn [orb] in H.
  assert (HandleNode nr ms a c g = HandleNode nr ms b c g) as -> by (destruct c; try reflexivity; discriminate). destruct (HandleNode nr ms b c g); [apply IH, H|reflexivity].
Qed.
Lemma visits_callbacks nodes i offs l : visits nodes i offs l -> Forall (fun c => exists n, In n nodes /\ n_callback n = c) l.
Proof. induction 1; repeat constructor; try assumption; eexists; (split; [eapply nth_error_In; eassumption|reflexivity]). Qed.
Lemma nonproto_entry ids e b : good_tag e -> entry_callback ids e = CNonProto b -> fst e = (kNonProto, 0).
Proof.
  destruct e as [[parent tag] st]. unfold entry_callback, good_tag. intros G. destruct (Z.eqb_spec tag 0) as [->|N].
  - destruct (Z.eqb_spec parent kNonProto) as [->|]; [reflexivity|discriminate].
  - destruct (_ && _); [discriminate|]. unfold GetCallbackType. cbv zeta. intros H. exfalso. revert H.
    repeat match goal with |- context [if ?b then _ else _] => destruct b end; discriminate.
Qed.
Lemma nonproto_nodes c T M nds : wf c -> Forall2 (node_for c T) M nds -> existsb is_nonproto nds = true ->
  has_lengths c = true /\ length (all_data c) = S (length (buffer_ids c)).
Proof.
  intros W F E. apply existsb_exists in E. destruct E as (nd & I1 & I2).
  assert (X : exists s, In s M /\ node_for c T s nd).
  { clear -F I1. induction F as [|s n M nds Hs F IH]; [destruct I1|]. destruct I1 as [->|I1]; [exists s; split; [left; reflexivity|exact Hs]|]. destruct (IH I1) as (s' & A & B). exists s'. split; [right; exact A|exact B]. }
  destruct X as (s & _ & N). unfold is_nonproto in I2. unfold node_for in N. destruct (s_tag s) as [t|]; [|destruct N as (N & _); rewrite N in I2; discriminate].
  destruct N as (ti & e & _ & N2 & N3 & _). destruct (n_callback nd) as [| | | |b| | | | |] eqn:EC; try discriminate. apply nth_error_In in N2.
  pose proof (proj1 (Forall_forall _ _) (wf_tags _ W) e N2) as G. pose proof (nonproto_entry (buffer_ids c) e b G (eq_sym N3)) as FE.
  assert (L : c_lengths c <> []) by (apply (wf_nonproto _ W); rewrite <- FE; apply in_map, N2).
  unfold has_lengths, all_data, buffer_ids. destruct (c_lengths c); [congruence|]. split; [reflexivity|]. rewrite app_length, !map_length. cbn [length]. lia.
Qed.

(** ** The machine *)
Lemma machine_total order c : (forall t l, Permutation (order t l) l) -> wf c -> zlen (c_encoded c) < 2 ^ 62 ->
  let sequence := rev (c_encoded c) in
  exists M T T' p w, CreateStateMachine order kMaxTransition kMinCountForState sequence (length (c_tags c)) = Some (M, T) /\ add_fake_dest sequence T = Some T' /\
    zlen M <= 2 * (zlen (c_encoded c) + zlen (c_tags c)) + 1 /\ Forall (based T' (length M)) M /\
    Forall (fun s => match s_tag s with Some k => (k < length (c_tags c))%nat /\ (k < length T')%nat | None => s_base s <> None end) M /\
    match sequence with
    | [] => Some O
    | first :: _ => find_index (fun s => match s_tag s with Some tag => Nat.eqb tag first | None => false end) M
    end = Some p /\ (p < length M)%nat /\ WriteTransitions kMaxTransition M T' sequence = Some w /\ bytes w /\ zlen w <= 64 * zlen (c_encoded c) /\ follows c M T' p (expand w) sequence.
Proof.
  intros OP W L. cbv zeta. pose proof (zlen_nonneg (c_tags c)). assert (LS : zlen (rev (c_encoded c)) = zlen (c_encoded c)) by (unfold zlen; rewrite rev_length; reflexivity).
  assert (F : Forall (fun t => (t < length (c_tags c))%nat) (rev (c_encoded c))) by (apply Forall_rev, (wf_enc _ W)).
  destruct (rev (c_encoded c)) as [|first rest].
  - change (zlen (@nil nat)) with 0 in LS. rewrite <- LS. destruct (machine_empty order OP c kMinCountForState) as (M & T & E1 & E2 & -> & E3). exists [{| s_tag := None; s_base := Some O; s_source := None |}], T, T, O, [].
    split; [exact E1|]. split; [exact E2|]. split; [rewrite zlen_cons; change (zlen (@nil state_info)) with 0; lia|]. split; [constructor; [unfold based; cbn; intros b X; injection X as <-; lia|constructor]|].
    split; [constructor; [cbn; discriminate|constructor]|]. split; [reflexivity|]. split; [cbn; lia|]. split; [reflexivity|]. split; [constructor|]. split; [change (zlen (@nil Z)) with 0; lia|]. exact E3.
  - rewrite zlen_cons in LS. destruct (machine_nonempty order OP c kMinCountForState first rest F ltac:(lia)) as (M & T & T' & offs & p & E1 & E2 & E3 & E4 & E5 & E6 & E7 & E8 & E9 & E10 & E11).
    exists M, T, T', p, (merge None offs). split; [exact E1|]. split; [exact E2|]. split; [lia|]. split; [exact E4|].
    split; [apply Forall_forall; intros s Hs; apply In_nth_error in Hs; destruct Hs as [q Hs]; pose proof (E6 q s Hs) as X; destruct (s_tag s); [rewrite E5; auto|exact X]|].
    split; [exact E7|]. split; [exact E8|]. split; [unfold WriteTransitions; rewrite E9; reflexivity|]. split; [apply merge_bytes, E10|]. split; [|rewrite expand_merge; exact E11].
    pose proof (merge_shorter offs None). pose proof (transitions_length _ _ _ _ _ _ E9). unfold zlen in *. lia.
Qed.

(** ** Parsing *)
Lemma flat_len (A : Type) (f : A -> list Z) n l : Forall (fun a => zlen (f a) <= n) l -> zlen (flat_map f l) <= n * zlen l.
Proof. induction 1 as [|a l H F IH]; [cbn; lia|]. cbn [flat_map]. rewrite zlen_app, zlen_cons. lia. Qed.
Lemma V32_len v : 0 <= v < 2 ^ 32 -> zlen (WriteVarint V32 v) <= 5.
Proof. intros H. destruct (varint32_round_trip true v [] H (Forall_nil _)) as (_ & _ & R & _). lia. Qed.
Lemma V64_len v : 0 <= v < 2 ^ 64 -> zlen (WriteVarint V64 v) <= 10.
Proof. intros H. destruct (varint64_round_trip true v [] H (Forall_nil _)) as (_ & _ & R & _). lia. Qed.

Section Round.
Variable compress : Z -> list Z -> list Z.
Variable decompress : Z -> list Z -> option (list Z).
Hypothesis compress_bytes : forall t l, bytes l -> bytes (compress t l).
Hypothesis round : forall t l, bytes l -> decompress t (compress t l) = Some l.
Variable ct : Z.
Hypothesis known : known_compression ct = true.
Notation E := (Compressor_EncodeAndClose compress ct).

Lemma known_byte : byte_cast ct = ct /\ is_byte ct.
Proof. pose proof known as K. unfold known_compression in K. rewrite !Bool.orb_true_iff, !Z.eqb_eq in K. unfold is_byte. destruct K as [[[-> | ->] | ->] | ->]; split; try reflexivity; unfold kNone, kBrotli, kZstd, kSnappy; lia. Qed.

Variable c : columns.
Hypothesis W : wf c.
Variable groups : list (list (list Z)).
Variables hb data : list Z.
Hypothesis groups_all : concat groups = all_data c.
Hypothesis groups_nonempty : Forall nonempty (concat groups).
Hypothesis groups_each : Forall (fun g => g <> []) groups.
Hypothesis data_is : data = concat (map (fun g => E (concat g)) groups).
Hypothesis hb_is : hb = WriteVarint V32 (zlen groups) ++ WriteVarint V32 (zlen (concat groups)) ++
             flat_map (fun g => WriteVarint V64 (zlen (E (concat g)))) groups ++ flat_map (fun b => WriteVarint V64 (zlen b)) (concat groups).
Variables (M : list state_info) (T' : list tag_info) (fields : list state_fields) (p : nat) (w : list Z).
Hypothesis fields_is : states_to_write c T' (length M) M = Some fields.
Hypothesis fields_short : Forall (fun f => short c (w_buffer f)) fields.
Hypothesis bases_ok : Forall (based T' (length M)) M.
Hypothesis M_small : zlen M < 2 ^ 31.
Hypothesis p_in : (p < length M)%nat.
Hypothesis w_bytes : bytes w.
Hypothesis w_small : zlen w < 2 ^ 40.
Hypothesis data_few : zlen (all_data c) < 2 ^ 32.
Hypothesis data_small : zlen (concat (all_data c)) < 2 ^ 64.
Hypothesis data_bytes : Forall bytes (all_data c).
Hypothesis no_loop : forall nds, Forall2 (node_for c T') M nds -> exists rank, ranked (nds ++ failures) rank.

Definition written_header : list Z :=
  hb ++ WriteVarint V32 (zlen M) ++ flat_map (fun f => WriteVarint V32 (w_tag f)) fields ++ flat_map (fun f => WriteVarint V32 (w_base f)) fields ++
  flat_map w_subtype fields ++ flat_map (fun f => flat_map (WriteVarint V32) (w_buffer f)) fields ++ WriteVarint V32 (Z.of_nat p).
Definition written_data : list Z := byte_cast ct :: Compressor_LengthPrefixed compress ct written_header ++ data ++ E w.

Lemma Parse_ok : zlen written_data < 2 ^ 64 -> bytes written_data /\ exists nds, Forall2 (node_for c T') M nds /\
  Parse decompress None written_data = Some {| x_buffers := all_data c; x_lengths := if existsb is_nonproto nds then Some (length (buffer_ids c)) else None;
    x_nodes := nds ++ failures; x_first := p; x_transitions := w |}.
Proof.
  intros DL. assert (D : zlen (E written_header) < 2 ^ 64 /\ zlen data < 2 ^ 64).
  { unfold written_data, Compressor_LengthPrefixed in DL. cbv zeta in DL. fold (E written_header) in DL. rewrite zlen_cons, !zlen_app in DL. fold (E w) in DL.
    match type of DL with context [zlen (WriteVarint V64 ?a)] => pose proof (zlen_nonneg (WriteVarint V64 a)) end. pose proof (zlen_nonneg data). pose proof (zlen_nonneg (E w)). pose proof (zlen_nonneg (E written_header)). lia. }
  destruct D as [D1 D2]. clear DL.
  assert (NB : (length (buffer_ids c) <= length (all_data c))%nat) by (unfold all_data, buffer_ids; rewrite app_length, !map_length; lia).
  destruct (parse_nodes_ok c T' (length (all_data c)) (length M) (wf_tags _ W) NB data_few ltac:(unfold zlen in M_small; lia) M fields (WriteVarint V32 (Z.of_nat p)) fields_is bases_ok (le_n _))
    as (F1 & F2 & F3 & F4 & F5 & F6 & nds & F7 & F8); [apply V32_bytes; unfold zlen in M_small; lia|].
  set (BF := flat_map (fun f => flat_map (WriteVarint V32) (w_buffer f)) fields ++ WriteVarint V32 (Z.of_nat p)) in *.
  destruct (read_varints_ok state_fields w_base fields (flat_map w_subtype fields ++ BF) F2 ltac:(apply bytes_app; auto)) as [R1 R2].
  destruct (read_varints_ok state_fields w_tag fields _ F1 R1) as [R3 R4].
  set (H := WriteVarint V32 (zlen M) ++ flat_map (fun f => WriteVarint V32 (w_tag f)) fields ++ flat_map (fun f => WriteVarint V32 (w_base f)) fields ++ flat_map w_subtype fields ++ BF) in *.
  assert (MR : 0 <= zlen M < 2 ^ 32) by (pose proof (zlen_nonneg M); lia).
  assert (HB : bytes H) by (apply bytes_app; split; [apply V32_bytes, MR|exact R3]).
  assert (HW : written_header = hb ++ H) by reflexivity.
  destruct (ParseBuffers_ok compress ct decompress compress_bytes round known groups hb data H (E w) hb_is data_is groups_nonempty groups_each ltac:(rewrite groups_all; exact data_bytes)
     ltac:(rewrite groups_all; exact data_small) D2 ltac:(rewrite groups_all; exact data_few) HB) as (B1 & B2 & B3).
  assert (HS : zlen written_header < 2 ^ 64).
  { assert (FL : zlen fields < 2 ^ 31) by (unfold zlen in *; lia). rewrite HW, zlen_app.
    assert (X1 : zlen hb < 2 ^ 40).
    { rewrite hb_is, !zlen_app. assert (G1 : zlen (concat groups) < 2 ^ 32) by (rewrite groups_all; exact data_few). pose proof (groups_le compress ct decompress compress_bytes round known _ groups groups_each) as G2.
      pose proof (zlen_nonneg groups). pose proof (zlen_nonneg (concat groups)). pose proof (V32_len (zlen groups) ltac:(lia)). pose proof (V32_len (zlen (concat groups)) ltac:(lia)).
      pose proof (flat_len _ (fun g => WriteVarint V64 (zlen (E (concat g)))) 10 groups) as Y1. pose proof (flat_len _ (fun b : list Z => WriteVarint V64 (zlen b)) 10 (concat groups)) as Y2.
      assert (Z1 : Forall (fun g => zlen (WriteVarint V64 (zlen (E (concat g)))) <= 10) groups).
      { apply Forall_forall. intros g Hg. apply V64_len. split; [apply zlen_nonneg|]. apply (Z.le_lt_trans _ (zlen data)); [|exact D2]. rewrite data_is. apply in_concat_le. apply (in_map (fun g => E (concat g))), Hg. }
      assert (Z2 : Forall (fun b : list Z => zlen (WriteVarint V64 (zlen b)) <= 10) (concat groups)).
      { apply Forall_forall. intros b Hb. apply V64_len. split; [apply zlen_nonneg|]. apply (Z.le_lt_trans _ (zlen (concat (concat groups)))); [apply in_concat_le, Hb|]. rewrite groups_all. exact data_small. }
      specialize (Y1 Z1). specialize (Y2 Z2). lia. }
    unfold H, BF. rewrite !zlen_app. pose proof (V32_len (zlen M) MR). pose proof (V32_len (Z.of_nat p) ltac:(unfold zlen in M_small; lia)).
    assert (Y1 : zlen (flat_map (fun f => WriteVarint V32 (w_tag f)) fields) <= 5 * zlen fields) by (apply flat_len; eapply Forall_impl; [|exact F1]; intros f; apply V32_len).
    assert (Y2 : zlen (flat_map (fun f => WriteVarint V32 (w_base f)) fields) <= 5 * zlen fields) by (apply flat_len; eapply Forall_impl; [|exact F2]; intros f; apply V32_len).
    assert (Y3 : zlen (flat_map w_subtype fields) <= zlen fields).
    { rewrite F5. pose proof (filter_length_le counts_subtype (map w_tag fields)) as X. rewrite map_length in X. unfold zlen. lia. }
    assert (Y4 : zlen (flat_map (fun f => flat_map (WriteVarint V32) (w_buffer f)) fields) <= 5 * zlen fields).
    { apply flat_len. eapply Forall_impl; [|exact fields_short]. intros f [-> |(i & -> & Hi)]; [cbn; lia|]. cbn [flat_map]. rewrite app_nil_r. apply V32_len. unfold zlen in *. lia. }
    lia. }
  destruct known_byte as [CT CB]. unfold written_data. rewrite CT, (length_prefixed compress decompress compress_bytes round) by assumption.
  set (E1 := E written_header) in *. pose proof (zlen_nonneg E1) as L0.
  assert (WHB : bytes written_header) by (rewrite HW; apply bytes_app; auto).
  assert (BE1 : bytes E1) by (apply (bytes_encode compress decompress compress_bytes round); assumption). assert (BW : bytes (E w)) by (apply (bytes_encode compress decompress compress_bytes round); [lia|assumption]).
  split; [constructor; [exact CB|]; rewrite <- app_assoc; apply bytes_app; split; [apply bytes_WriteVarint; lia|]; rewrite !bytes_app; auto|].
  exists nds. split; [exact F8|]. unfold Parse. rewrite <- app_assoc. rewrite ReadVarint_Write; [|exact vt64|cbn [vbits V64]; lia|rewrite !bytes_app; auto].
  rewrite zlen_app. replace (zlen E1 + zlen (data ++ E w) <? zlen E1) with false by (symmetry; apply Z.ltb_ge; pose proof (zlen_nonneg (data ++ E w)); lia).
  rewrite ztake_app_exact, zdrop_app_exact. unfold E1. rewrite decompressor_ok with (compress := compress); [|assumption..]. rewrite HW, B3.
  unfold H. rewrite V32_read by assumption. replace (Z.to_nat (zlen M)) with (length fields) by (unfold zlen; lia). rewrite R4, R2.
  change (fun tag : Z => ValidTag tag && match HasSubtype tag with Some b => b | None => false end) with counts_subtype. rewrite <- F5.
  rewrite zlen_app. replace (_ <? _) with false by (symmetry; apply Z.ltb_ge; pose proof (zlen_nonneg BF); lia).
  rewrite ztake_app_exact, zdrop_app_exact. rewrite groups_all. change (zlen M) with (Z.of_nat (length M)). rewrite F7.
  replace (if existsb is_nonproto nds then match length (all_data c) with O => None | S n => Some (Some n) end else Some None)
    with (Some (if existsb is_nonproto nds then Some (length (buffer_ids c)) else None)).
  2: { destruct (existsb is_nonproto nds) eqn:X; [|reflexivity]. destruct (nonproto_nodes c T' M nds W F8 X) as [_ ->]. reflexivity. }
  pose proof (V32_read (Z.of_nat p) [] ltac:(unfold zlen in M_small; lia) bytes_nil) as V. rewrite app_nil_r in V. rewrite V.
  replace (Z.of_nat (length M) <=? Z.of_nat p) with false by (symmetry; apply Z.leb_gt; lia).
  destruct (no_loop nds F8) as [rank RK]. fold failures. rewrite (ContainsImplicitLoop_false (nds ++ failures) rank RK).
  rewrite decompressor_ok with (compress := compress); [|assumption|assumption|assumption|lia|assumption]. rewrite Nat2Z.id. reflexivity.
Qed.
End Round.

(** ** Decoding *)
Lemma entries_sequence c : rev (entries c) = map (fun t => nth t (c_tags c) entry0) (rev (c_encoded c)).
Proof. unfold entries. rewrite map_rev. reflexivity. Qed.
Lemma filter_existsb (f g : callback -> bool) l : (forall x, g x = true -> f x = true) -> existsb g (filter f l) = existsb g l.
Proof. intros H. induction l as [|x l IH]; [reflexivity|]. cbn [filter existsb]. specialize (H x). destruct (f x); cbn [existsb]; rewrite IH; [reflexivity|]. destruct (g x); [discriminate (H eq_refl)|reflexivity]. Qed.

Definition decoded (nr ms : Z) (g : option decoding) : option (list Z * list Z) :=
  match g with
  | None => None
  | Some g => match Finish nr g with None => None | Some (limits, dest) => if zlen dest =? ms then Some (limits, dest) else None end
  end.
(** What is decoded is determined by the columns *)
Lemma transpose_columns compress decompress order o rs c :
  (forall t l, bytes l -> bytes (compress t l)) -> (forall t l, bytes l -> decompress t (compress t l) = Some l) -> (forall t l, Permutation (order t l) l) ->
  known_compression (o_ct o) = true -> add_records rs 0 0 no_columns = Some c -> wf c ->
  zlen (c_encoded c) + zlen (c_tags c) < 2 ^ 30 -> zlen (all_data c) < 2 ^ 32 -> zlen (concat (all_data c)) < 2 ^ 64 -> Forall bytes (all_data c) ->
  exists data, TransposeEncode compress order o rs = Some data /\
    (zlen data < 2 ^ 64 -> bytes data /\ forall nr ms, TransposeDecode decompress data nr ms =
       decoded nr ms (run (buffer_ids c) (has_lengths c) nr ms (rev (entries c)) {| g_buffers := all_data c; g_dest := []; g_stack := []; g_limits := [] |})).
Proof.
  intros CB CR OP K EC W SZ A2 A1 A4.
  pose proof (zlen_nonneg (c_tags c)). pose proof (zlen_nonneg (c_encoded c)).
  destruct (machine_total order c OP W ltac:(lia)) as (M & T & T' & p & w & E1 & E2 & E3 & E4 & E5 & E6 & E7 & E8 & E9 & E10 & E11).
  destruct (states_to_write_total c T' (length M) M W E5) as (fields & E12 & E13 & E14).
  destruct (WriteBuffers_total compress (o_ct o) o c W eq_refl) as (hb & data & E15).
  destruct (WriteBuffers_ok compress (o_ct o) o c hb data W eq_refl E15) as (groups & G1 & G2 & G3 & G4 & G5).
  set (WD := written_data compress (o_ct o) hb data M fields p w).
  exists WD. split.
  - unfold TransposeEncode. rewrite EC. cbv zeta. rewrite E1. unfold WriteStatesAndData. replace (2 ^ 31 <=? zlen M) with false by (symmetry; apply Z.leb_gt; lia). rewrite E2, E15, E12. cbv zeta. rewrite E6, E8. reflexivity.
  - intros DL. destruct (Parse_ok compress decompress CB CR (o_ct o) K c W groups hb data G1 G2 G3 G4 G5 M T' fields p w E12 E14 E4 ltac:(lia) E7 E9 ltac:(lia) ltac:(lia) ltac:(lia) A4) as (P1 & nds & P2 & P3).
    + intros nds F. apply (E11 nds F).
    + exact DL.
    + fold WD in P1, P3. split; [exact P1|]. intros nr ms. unfold TransposeDecode, TransposeDecodeOut. rewrite P3. cbn [x_nodes x_first x_transitions x_lengths x_buffers].
      destruct (E11 nds P2) as ((l & V1 & V2) & rank & RK).
      set (ln := if existsb is_nonproto nds then Some (length (buffer_ids c)) else None).
      pose proof (decode_loop_visits None nr ms ln (nds ++ failures) p (expand w) l V1 (decode_fuel (length (nds ++ failures)) (length w)) O w
        {| g_buffers := all_data c; g_dest := []; g_stack := []; g_limits := [] |}) as DEC.
      assert (FU : (length l <= decode_fuel (length (nds ++ failures)) (length w))%nat).
      { pose proof (visits_length (nds ++ failures) rank RK _ _ _ V1) as X. pose proof (crank_le (nds ++ failures) rank RK p) as Y.
        assert (EL : (length (expand w) <= 4 * length w)%nat).
        { clear -E9. induction E9 as [|x w Hx F IH]; [cbn; lia|]. unfold expand in *. cbn [flat_map]. rewrite app_length.
          assert (Z.land x 3 < 4) by (change (Z.land x (2 ^ 2 - 1) < 2 ^ 2); rewrite (land_ones_mod x 2 ltac:(lia)); apply Z.mod_pos_bound; reflexivity).
          assert (length (expand1 x) <= 4)%nat by (unfold expand1; cbn [length]; rewrite repeat_length; lia). cbn [length]. lia. }
        unfold decode_fuel. nia. }
      specialize (DEC FU eq_refl). cbn [Z.of_nat Z.add] in DEC. unfold implicit_of in DEC.
      replace (match nth_error (nds ++ failures) p with Some n => if n_implicit n then 1 else 0 | None => 0 end)
        with (if match nth_error (nds ++ failures) p with Some n => n_implicit n | None => false end then 1 else 0) in DEC by (destruct (nth_error (nds ++ failures) p); reflexivity).
      rewrite DEC. clear DEC.
      assert (RC : run_callbacks nr ms ln l {| g_buffers := all_data c; g_dest := []; g_stack := []; g_limits := [] |} =
        run (buffer_ids c) (has_lengths c) nr ms (rev (entries c)) {| g_buffers := all_data c; g_dest := []; g_stack := []; g_limits := [] |}).
      { rewrite run_is_callbacks, entries_sequence, map_map. rewrite (run_lengths _ _ ln (lens (buffer_ids c) (has_lengths c))).
        - rewrite run_ops, V2, <- run_ops. reflexivity.
        - intros X. apply existsb_exists in X. destruct X as (cb & X1 & X2). pose proof (proj1 (Forall_forall _ _) (visits_callbacks _ _ _ _ V1) cb X1) as (nd & Y1 & Y2).
          assert (EX : existsb is_nonproto nds = true).
          { apply existsb_exists. apply in_app_or in Y1. destruct Y1 as [Y1|Y1]; [exists nd; split; [exact Y1|]; unfold is_nonproto; rewrite Y2; destruct cb; try discriminate; reflexivity|].
            apply repeat_spec in Y1. subst nd. cbn in Y2. subst cb. discriminate. }
          unfold ln, lens. rewrite EX. destruct (nonproto_nodes c T' M nds W P2 EX) as [-> _]. reflexivity. }
      rewrite RC. reflexivity.
Qed.

Lemma transpose_round compress decompress order o rs :
  (forall t l, bytes l -> bytes (compress t l)) -> (forall t l, bytes l -> decompress t (compress t l) = Some l) -> (forall t l, Permutation (order t l) l) ->
  known_compression (o_ct o) = true -> Forall bytes rs -> zlen rs + 2 * zlen (concat rs) < 2 ^ 29 ->
  exists data, TransposeEncode compress order o rs = Some data /\
    (zlen data < 2 ^ 64 -> bytes data /\ TransposeDecode decompress data (zlen rs) (zlen (concat rs)) = Some (ends 0 rs, concat rs)).
Proof.
  intros CB CR OP K B L. pose proof (zlen_nonneg rs) as L1. pose proof (zlen_nonneg (concat rs)) as L2.
  destruct (columns_ok rs B L) as (c & EC & W & SZ & bufs & RUN). pose proof SZ as (_ & S2 & S3 & S4).
  destruct (all_data_size c _ _ W SZ) as (A1 & A2 & A3 & A4).
  destruct (transpose_columns compress decompress order o rs c CB CR OP K EC W ltac:(lia) ltac:(lia) ltac:(lia) A4) as (data & E & D).
  exists data. split; [exact E|]. intros DL. destruct (D DL) as [D1 D2]. split; [exact D1|]. rewrite D2, RUN. cbn [decoded]. unfold Finish. cbn [g_stack g_limits g_dest].
  rewrite zlen_map, starts_length, Z.eqb_refl. cbn [negb].
  pose proof (starts_limits rs 0 (zlen (concat rs)) ltac:(lia)) as SL.
  destruct rs as [|r rs]; [cbn [starts_of map concat] in *; change (zlen (@nil Z)) with 0; cbn; reflexivity|].
  cbn [starts_of map] in SL |- *. rewrite Z.sub_0_r in SL |- *. rewrite Z.eqb_refl. cbn [negb]. rewrite SL, Z.eqb_refl. reflexivity.
Qed.
