(** A RecordReader over a valid file is a cursor in the list of records. *)
From Verif Require Import Base.Bytes Model.Endian Model.Block Model.Chunk Model.ChunkReader Model.SimpleChunk Model.ChunkDecoder Model.RecordReader
  Spec.BlockSpec Spec.FileSpec Spec.ChunkLink Spec.SeekSpec Spec.RecordsSpec Spec.CursorSpec Spec.CursorLink
  Proof.BlockProof Proof.ChunkWriterProof Proof.ChunkReaderProof Proof.FileProof Proof.RecoverProof Proof.LocalProof Proof.SeekProof Proof.DecoderProof.

Lemma zseq_len a n : zlen (zseq a n) = Z.max 0 n.
Proof. unfold zseq. rewrite zlen_map. unfold zlen. rewrite seq_length. lia. Qed.
Lemma nth_zseq n i : 0 <= i < n -> nth_error (zseq 0 n) (Z.to_nat i) = Some i.
Proof.
  intros H. unfold zseq. rewrite nth_error_map. replace (nth_error (seq 0 (Z.to_nat n)) (Z.to_nat i)) with (Some (Z.to_nat i)); [cbn; f_equal; lia|].
  symmetry. rewrite (nth_error_nth' _ O); [rewrite seq_nth by lia; f_equal; lia|rewrite seq_length; lia].
Qed.
Lemma in_zseq x n : In x (zseq 0 n) -> 0 <= x < n.
Proof. unfold zseq. rewrite in_map_iff. intros (i & <- & H). apply in_seq in H. lia. Qed.

Section CursorLists.
  Lemma positions_app v1 v2 : positions_of (v1 ++ v2) = positions_of v1 ++ positions_of v2.
  Proof. apply flat_map_app. Qed.
  Lemma records_app v1 v2 : records_of (v1 ++ v2) = records_of v1 ++ records_of v2.
  Proof. unfold records_of. rewrite map_app, concat_app. reflexivity. Qed.
  Lemma zlen_positions v : zlen (positions_of v) = zlen (records_of v).
  Proof.
    induction v as [|c v IH]; [reflexivity|]. unfold positions_of, records_of in *. cbn [flat_map map concat]. rewrite !zlen_app, IH, zlen_map, zseq_len.
    pose proof (zlen_nonneg (snd c)). lia.
  Qed.
  Lemma in_positions v p : In p (positions_of v) -> exists c, In c v /\ fst p = fst c /\ 0 <= snd p < zlen (snd c).
  Proof.
    unfold positions_of. rewrite in_flat_map. intros (c & C & H). apply in_map_iff in H as (i & <- & I). apply in_zseq in I. exists c. cbn. auto.
  Qed.
  Lemma count_app {A} (f : A -> bool) a b : count f (a ++ b) = count f a + count f b.
  Proof. unfold count. rewrite filter_app, zlen_app. reflexivity. Qed.
  Lemma count_all {A} (f : A -> bool) l : (forall x, In x l -> f x = true) -> count f l = zlen l.
  Proof. intros H. unfold count. f_equal. induction l as [|x l IH]; [reflexivity|]. cbn. rewrite H by (left; reflexivity). f_equal. apply IH. intros; apply H; right; assumption. Qed.
  Lemma count_none {A} (f : A -> bool) l : (forall x, In x l -> f x = false) -> count f l = 0.
  Proof. intros H. unfold count. induction l as [|x l IH]; [reflexivity|]. cbn. rewrite H by (left; reflexivity). apply IH. intros; apply H; right; assumption. Qed.
  Lemma count_below (f : Z * Z -> bool) (b n j : Z) : 0 <= n -> (forall i, 0 <= i < n -> f (b, i) = (i <? j)) -> 0 <= j ->
    count f (map (fun i => (b, i)) (zseq 0 n)) = Z.min j n.
  Proof.
    intros N H J. revert H. pattern n. apply natlike_ind; [| |exact N].
    - intros _. cbn. lia.
    - intros m M IH H. unfold zseq in *. replace (Z.to_nat (Z.succ m)) with (Z.to_nat m + 1)%nat by lia. rewrite seq_app, !map_app, count_app, IH by (intros; apply H; lia).
      cbn [seq map]. replace (0 + Z.of_nat (0 + Z.to_nat m)) with m by lia. unfold count. cbn [filter]. rewrite H by lia.
      destruct (Z.ltb_spec m j); cbn; lia.
  Qed.
End CursorLists.

Lemma Read_end rs : ReadRecord (holds rs (zlen rs)) = Some (None, holds rs (zlen rs)).
Proof.
  rewrite ReadRecord_holds by apply zlen_nonneg. destruct (nth_error rs (Z.to_nat (zlen rs))) eqn:E.
  - assert (Z.to_nat (zlen rs) < length rs)%nat by (apply nth_error_Some; congruence). unfold zlen in *. lia.
  - rewrite Z.eqb_refl. reflexivity.
Qed.

Section Reader.
  Variable hash : list Z -> Z.
  Hypothesis hash_range : forall l, 0 <= hash l < 2 ^ 64.
  Variable decompress : Z -> list Z -> option (list Z).
  Variable transpose_decode : list Z -> Z -> Z -> option (list Z * list Z).
  Variable F : list Z.
  Variable qr : list (placed * list (list Z)).
  Notation qs0 := (map fst qr).
  Hypothesis FC : chain hash F 0 qs0.
  Hypothesis FS : Forall (seek_ok hash F) qs0.
  Hypothesis flen : zlen F + 64 <= 2 ^ 64.
  Definition decodes (x : placed * list (list Z)) : Prop :=
    Decode decompress transpose_decode (mk_chunk hash (q_chunk (fst x))) = (true, holds (snd x) 0) /\
    zlen (snd x) = k_nrec (q_chunk (fst x)).
  Hypothesis DEC : Forall decodes qr.

  Definition beginning (B : list (placed * list (list Z))) : Z :=
    match B with [] => zlen F | x :: _ => q_begin (fst x) end.
  Definition nrecs (A : list (placed * list (list Z))) : Z := zlen (concat (map snd A)).
  Definition vw (l : list (placed * list (list Z))) : view := map (fun x => (q_begin (fst x), snd x)) l.

  Lemma vw_app a b : vw (a ++ b) = vw a ++ vw b.
  Proof. apply map_app. Qed.
  Lemma records_vw l : records_of (vw l) = concat (map snd l).
  Proof. unfold records_of, vw. rewrite map_map. reflexivity. Qed.
  Lemma nrecs_app a b : nrecs (a ++ b) = nrecs a + nrecs b.
  Proof. unfold nrecs. rewrite map_app, concat_app, zlen_app. reflexivity. Qed.
  Lemma nrecs_nonneg a : 0 <= nrecs a.
  Proof. apply zlen_nonneg. Qed.
  Lemma nrecs_one x : nrecs [x] = zlen (snd x).
  Proof. unfold nrecs. cbn. rewrite app_nil_r. reflexivity. Qed.

  Lemma chain_begin p B : chain hash F p (map fst B) -> p = beginning B.
  Proof. intros C. destruct B as [|x B]; inversion C; reflexivity. Qed.
  Lemma split_at A B : qr = A ++ B -> chain hash F (beginning B) (map fst B) /\ Forall (fun q => q_end q <= beginning B) (map fst A) /\ 0 <= beginning B.
  Proof.
    intros E. pose proof FC as C. rewrite E, map_app in C. destruct (chain_app hash hash_range F 0 (map fst A) (map fst B) C) as (p & C' & H & P).
    pose proof (chain_begin p B C') as <-. auto.
  Qed.
  Lemma split_end A x C : qr = A ++ x :: C -> q_end (fst x) = beginning C.
  Proof. intros E. destruct (split_at _ _ E) as (CH & _). cbn [map] in CH. inversion CH; subst. apply chain_begin. assumption. Qed.
  Lemma incl_B A B : qr = A ++ B -> incl (map fst B) qs0.
  Proof. intros ->. rewrite map_app. apply incl_appr, incl_refl. Qed.
  Lemma begin_le A B : qr = A ++ B -> beginning B <= zlen F.
  Proof. intros E. destruct (split_at _ _ E) as (CH & _ & P). apply (proj1 (chain_le hash F _ _ CH P)). Qed.
  Lemma seek_in x : In x qr -> seek_ok hash F (fst x).
  Proof. intros I. rewrite Forall_forall in FS. apply FS, in_map, I. Qed.
  Lemma dec_in x : In x qr -> decodes x.
  Proof. intros I. rewrite Forall_forall in DEC. apply DEC, I. Qed.

  (** Chunks before and after a place. *)
  Lemma before_place A B y : qr = A ++ B -> In y A -> q_begin (fst y) + zlen (snd y) <= beginning B /\ q_begin (fst y) < beginning B.
  Proof.
    intros E I. destruct (split_at _ _ E) as (_ & FA & _). rewrite Forall_forall in FA. specialize (FA (fst y) (in_map fst _ _ I)). cbv beta in FA.
    assert (IQ : In y qr) by (rewrite E; apply in_or_app; auto).
    destruct (nrec_end hash F (fst y) (seek_in y IQ)) as (N1 & N2 & _). destruct (dec_in y IQ) as [_ ->]. lia.
  Qed.
  Lemma after_place A B y : qr = A ++ B -> In y B -> beginning B <= q_begin (fst y).
  Proof.
    intros E I. destruct (split_at _ _ E) as (CH & _ & P). destruct (chain_le hash F _ _ CH P) as [_ FA]. rewrite Forall_forall in FA.
    specialize (FA (fst y) (in_map fst _ _ I)). cbv beta in FA. lia.
  Qed.
  Lemma pos_before A B p : qr = A ++ B -> In p (positions_of (vw A)) -> fst p < beginning B /\ numeric p < beginning B /\ 0 <= snd p.
  Proof.
    intros E I. apply in_positions in I as (c & C & EQ & R). apply in_map_iff in C as (y & <- & Y). cbn in EQ, R.
    destruct (before_place A B y E Y). unfold numeric. rewrite EQ. lia.
  Qed.
  Lemma pos_after A B p : qr = A ++ B -> In p (positions_of (vw B)) -> beginning B <= fst p /\ beginning B <= numeric p /\ 0 <= snd p.
  Proof.
    intros E I. apply in_positions in I as (c & C & EQ & R). apply in_map_iff in C as (y & <- & Y). cbn in EQ, R.
    pose proof (after_place A B y E Y). unfold numeric. rewrite EQ. lia.
  Qed.

  Lemma count_place f A B : qr = A ++ B -> (forall p, In p (positions_of (vw A)) -> f p = true) ->
    (forall p, In p (positions_of (vw B)) -> f p = false) -> count f (positions_of (vw qr)) = nrecs A.
  Proof.
    intros E HA HB. rewrite E, vw_app, positions_app, count_app, count_all, count_none by assumption. rewrite zlen_positions, records_vw. unfold nrecs. lia.
  Qed.
  Lemma count_inside f A x C j : qr = A ++ x :: C -> 0 <= j -> (forall p, In p (positions_of (vw A)) -> f p = true) ->
    (forall p, In p (positions_of (vw C)) -> f p = false) -> (forall i, 0 <= i < zlen (snd x) -> f (q_begin (fst x), i) = (i <? j)) ->
    count f (positions_of (vw qr)) = nrecs A + Z.min j (zlen (snd x)).
  Proof.
    intros E J HA HC HX. rewrite E. change (x :: C) with ([x] ++ C). rewrite !vw_app, !positions_app, !count_app, (count_all f (positions_of (vw A))), (count_none f (positions_of (vw C))) by assumption.
    rewrite zlen_positions, records_vw. change (positions_of (vw [x])) with (map (fun i => (q_begin (fst x), i)) (zseq 0 (zlen (snd x))) ++ []). rewrite app_nil_r.
    rewrite (count_below f (q_begin (fst x)) (zlen (snd x)) j); try assumption; [unfold nrecs; lia|apply zlen_nonneg].
  Qed.

  Lemma nth_mid {X} (a b c : list X) i : 0 <= i < zlen b -> nth_error (a ++ b ++ c) (Z.to_nat (zlen a + i)) = nth_error b (Z.to_nat i).
  Proof.
    intros H. unfold zlen in *. rewrite nth_error_app2 by lia. rewrite nth_error_app1 by lia. f_equal. lia.
  Qed.
  Lemma nth_pos A x C j : qr = A ++ x :: C -> 0 <= j < zlen (snd x) ->
    nth_error (positions_of (vw qr)) (Z.to_nat (nrecs A + j)) = Some (q_begin (fst x), j) /\
    nth_error (records_of (vw qr)) (Z.to_nat (nrecs A + j)) = nth_error (snd x) (Z.to_nat j).
  Proof.
    intros E J. rewrite E. change (x :: C) with ([x] ++ C). rewrite !vw_app, !positions_app, !records_app. split.
    - replace (nrecs A) with (zlen (positions_of (vw A))) by (rewrite zlen_positions, records_vw; reflexivity).
      change (positions_of (vw [x])) with (map (fun i => (q_begin (fst x), i)) (zseq 0 (zlen (snd x))) ++ []). rewrite app_nil_r.
      rewrite nth_mid by (rewrite zlen_map, zseq_len; lia). rewrite nth_error_map, nth_zseq by assumption. reflexivity.
    - replace (nrecs A) with (zlen (records_of (vw A))) by (rewrite records_vw; reflexivity). change (records_of (vw [x])) with (snd x ++ []). rewrite app_nil_r.
      apply nth_mid. assumption.
  Qed.
  Lemma nth_end A : qr = A -> nth_error (records_of (vw qr)) (Z.to_nat (nrecs A)) = None.
  Proof. intros <-. rewrite records_vw. apply nth_error_None. unfold nrecs, zlen. lia. Qed.

  (** ** States *)
  Record base (d : record_reader) : Prop := { b_open : rd_open d = true; b_failed : rd_failed d = false; b_rec : rd_rec d = RNo }.
  Lemma base_ok d : base d -> rd_ok d = true.
  Proof. intros []. unfold rd_ok. rewrite b_open0, b_failed0. reflexivity. Qed.

  Inductive rel : Z -> record_reader -> Prop :=
  | rel_between A B d : qr = A ++ B -> base d -> rd_begin d = beginning B -> rd_dec d = ClearDecoder ->
      st hash F (beginning B) (map fst B) (rd_src d) -> rel (nrecs A) d
  | rel_inside A x C j d : qr = A ++ x :: C -> base d -> rd_begin d = q_begin (fst x) -> rd_dec d = holds (snd x) j ->
      0 <= j <= zlen (snd x) -> st hash F (beginning C) (map fst C) (rd_src d) -> rel (nrecs A + j) d.

  Lemma rel_base i d : rel i d -> base d.
  Proof. intros []; assumption. Qed.

  (** Reading the next chunk. *)
  Lemma read_chunk A B d : qr = A ++ B -> base d -> st hash F (beginning B) (map fst B) (rd_src d) ->
    match B with
    | [] => exists d', RR_ReadChunk hash decompress transpose_decode F d = Some (false, d') /\ base d' /\ rd_begin d' = zlen F /\
              rd_dec d' = ClearDecoder /\ rd_last d' = rd_last d /\ st hash F (zlen F) [] (rd_src d')
    | x :: C => exists d', RR_ReadChunk hash decompress transpose_decode F d = Some (true, d') /\ base d' /\ rd_begin d' = q_begin (fst x) /\
              rd_dec d' = holds (snd x) 0 /\ rd_last d' = rd_last d /\ st hash F (beginning C) (map fst C) (rd_src d')
    end.
  Proof.
    intros E [O Fl R] S. destruct (split_at _ _ E) as (CH & _ & P). destruct (st_ok hash F _ _ _ S) as [SO SP].
    destruct (read_positioned hash hash_range F qs0 FS flen _ _ _ CH (incl_B _ _ E) P S) as (src & RC & S').
    unfold RR_ReadChunk. cbn [rd_src put_begin]. rewrite RC. destruct B as [|x C]; cbn [map] in *.
    - destruct (st_ok hash F _ _ _ S') as [SO' _]. rewrite SO'. cbn [negb]. eexists. split; [reflexivity|]. split; [constructor; assumption|]. split; [exact SP|]. split; [reflexivity|]. split; [reflexivity|exact S'].
    - assert (IX : In x qr) by (rewrite E; apply in_or_app; right; left; reflexivity). destruct (dec_in x IX) as [DX _]. rewrite DX. cbn [negb].
      eexists. split; [reflexivity|]. rewrite (split_end _ _ _ E) in S'. split; [constructor; assumption|]. split; [exact SP|]. split; [reflexivity|]. split; [reflexivity|exact S'].
  Qed.


  Definition read_result (i : Z) (o : option (list Z)) (d : record_reader) : Prop :=
    o = nth_error (records_of (vw qr)) (Z.to_nat i) /\
    match o with
    | Some _ => last_pos d = nth_error (positions_of (vw qr)) (Z.to_nat i) /\ rel (i + 1) d
    | None => last_pos d = None /\ rel i d
    end.

  Lemma read_inside A x C j d fuel : qr = A ++ x :: C -> base d -> rd_begin d = q_begin (fst x) -> rd_dec d = holds (snd x) j ->
    0 <= j < zlen (snd x) -> st hash F (beginning C) (map fst C) (rd_src d) ->
    exists o d', RR_ReadRecord_loop hash decompress transpose_decode (S fuel) F d = Some (o, d') /\ read_result (nrecs A + j) o d'.
  Proof.
    intros E B RB RD J S. cbn [RR_ReadRecord_loop]. rewrite RD, ReadRecord_holds by lia.
    destruct (nth_error (snd x) (Z.to_nat j)) as [r|] eqn:N.
    2:{ apply nth_error_None in N. unfold zlen in J. lia. }
    eexists _, _. split; [reflexivity|]. destruct (nth_pos A x C j E J) as [NP NR]. unfold read_result. rewrite NR, NP, N. split; [reflexivity|].
    split.
    - unfold last_pos. cbn. rewrite RB. do 2 f_equal. lia.
    - rewrite <- Z.add_assoc. apply (rel_inside A x C); cbn [put_last put_dec rd_begin rd_dec rd_src]; try assumption; try reflexivity; try lia. destruct B; constructor; assumption.
  Qed.

  Lemma read_loop : forall B fuel A d rs, qr = A ++ B -> base d -> rd_dec d = holds rs (zlen rs) -> rd_last d = false ->
    st hash F (beginning B) (map fst B) (rd_src d) -> (S (length B) < fuel)%nat ->
    exists o d', RR_ReadRecord_loop hash decompress transpose_decode fuel F d = Some (o, d') /\ read_result (nrecs A) o d'.
  Proof.
    induction B as [|x C IH]; intros fuel A d rs E BA RD RL S LF; (destruct fuel as [|fuel]; [lia|]); cbn [RR_ReadRecord_loop].
    - rewrite RD, Read_end. cbn [put_dec]. rewrite <- RD. replace (put_dec (rd_dec d) d) with d by (destruct d; reflexivity). rewrite (base_ok _ BA). cbn [negb].
      rewrite RD. cbn [dc_ok holds negb]. destruct (read_chunk A [] d E BA S) as (d' & -> & B1 & B2 & B3 & B4 & B5).
      eexists _, _. split; [reflexivity|]. unfold read_result. rewrite app_nil_r in E. rewrite (nth_end A E). split; [reflexivity|]. split.
      + unfold last_pos. rewrite B4, RL. reflexivity.
      + apply (rel_between A []); try assumption. rewrite app_nil_r. assumption.
    - rewrite RD, Read_end. cbn [put_dec]. rewrite <- RD. replace (put_dec (rd_dec d) d) with d by (destruct d; reflexivity). rewrite (base_ok _ BA). cbn [negb].
      rewrite RD. cbn [dc_ok holds negb]. destruct (read_chunk A (x :: C) d E BA S) as (d' & -> & B1 & B2 & B3 & B4 & B5).
      destruct (Z.eq_dec (zlen (snd x)) 0) as [Z0|NZ].
      + assert (E' : qr = (A ++ [x]) ++ C) by (rewrite <- app_assoc; exact E).
        destruct (IH fuel (A ++ [x]) d' (snd x) E') as (o & d'' & L & RR); try assumption; try congruence.
        { cbn in LF. lia. }
        exists o, d''. split; [exact L|]. rewrite nrecs_app, nrecs_one, Z0, Z.add_0_r in RR. exact RR.
      + destruct fuel as [|fuel]; [cbn in LF; lia|]. pose proof (zlen_nonneg (snd x)).
        destruct (read_inside A x C 0 d' fuel E B1 B2 B3 ltac:(lia) B5) as (o & d'' & L & RR). rewrite Z.add_0_r in RR. eauto.
  Qed.

  Lemma chain_length : forall (B : list (placed * list (list Z))) p, chain hash F p (map fst B) -> 0 <= p -> p + 40 * zlen B <= zlen F.
  Proof.
    induction B as [|x B IH]; intros p C P; inversion C; subst; [change (zlen (@nil (placed * list (list Z)))) with 0; lia|].
    match goal with H : placed_ok _ _ _ |- _ => destruct H end. match goal with H : chain _ _ _ _ |- _ => specialize (IH _ H) end.
    rewrite zlen_cons. lia.
  Qed.
  Lemma fuel_ok A B : qr = A ++ B -> (length B <= length F)%nat.
  Proof. intros E. destruct (split_at _ _ E) as (CH & _ & P). pose proof (chain_length B _ CH P). unfold zlen in *. lia. Qed.

  Lemma read_step i d : rel i d -> exists o d', RR_ReadRecord hash decompress transpose_decode F d = Some (o, d') /\ read_result i o d'.
  Proof.
    intros R. unfold RR_ReadRecord. destruct R as [A B d E BA RB RD S|A x C j d E BA RB RD J S].
    - apply (read_loop B) with (rs := []); try assumption; cbn; try reflexivity; [destruct BA; constructor; assumption|].
      pose proof (fuel_ok A B E). lia.
    - assert (BA' : base (put_last false d)) by (destruct BA; constructor; assumption).
      destruct (Z.eq_dec j (zlen (snd x))) as [->|N].
      + assert (E' : qr = (A ++ [x]) ++ C) by (rewrite <- app_assoc; exact E). rewrite <- nrecs_one, <- nrecs_app.
        apply (read_loop C) with (rs := snd x); try assumption; try reflexivity. pose proof (fuel_ok _ _ E'). lia.
      + apply (read_inside A x C); try assumption. lia.
  Qed.

  (** ** Seeking *)
  Lemma split_unique : forall A1 B1 A2 B2, qr = A1 ++ B1 -> qr = A2 ++ B2 -> beginning B1 = beginning B2 -> A1 = A2 /\ B1 = B2.
  Proof.
    assert (G : forall A1 B1 A2 B2, qr = A1 ++ B1 -> qr = A2 ++ B2 -> beginning B1 = beginning B2 -> (length A1 <= length A2)%nat -> A1 = A2 /\ B1 = B2).
    { intros A1 B1 A2 B2 E1 E2 EB L.
      assert (X : exists M, A2 = A1 ++ M /\ B1 = M ++ B2).
      { clear EB. rewrite E1 in E2. clear E1. revert A2 L E2. induction A1 as [|a A1 IH]; intros A2 L E2; [exists A2; auto|].
        destruct A2 as [|a2 A2]; [cbn in L; lia|]. cbn [app] in E2. inversion E2; subst. destruct (IH A2) as (M & -> & ->); [cbn in L; lia|assumption|]. exists M. auto. }
      destruct X as (M & -> & ->). destruct M as [|y M]; [rewrite app_nil_r; auto|]. exfalso.
      assert (I : In y (A1 ++ y :: M)) by (apply in_or_app; right; left; reflexivity).
      destruct (before_place _ _ y E2 I) as [_ H]. cbn [app beginning] in EB. lia. }
    intros A1 B1 A2 B2 E1 E2 EB. destruct (Nat.le_gt_cases (length A1) (length A2)) as [L|L]; [apply G; assumption|].
    destruct (G A2 B2 A1 B1) as [-> ->]; auto. lia.
  Qed.

  Definition idle (src : reader) : Prop := exists A B, qr = A ++ B /\ st hash F (beginning B) (map fst B) src.
  Lemma rel_idle i d : rel i d -> idle (rd_src d).
  Proof.
    intros [A B d' E BA RB RD S|A x C j d' E BA RB RD J S]; [exists A, B; auto|]. exists (A ++ [x]), C. split; [rewrite <- app_assoc; exact E|exact S].
  Qed.

  Lemma st_fields p qs src : st hash F p qs src -> r_open src = true /\ r_failed src = false /\ r_rec src = kNo /\ zlen (r_header src) = 40 /\ zlen (r_block src) = 24.
  Proof. unfold st. destruct qs; cbn [at_file]; intros []; auto. Qed.

  Lemma src_seek_ok A B src : qr = A ++ B -> idle src -> exists src', Seek F (beginning B) src = (true, src') /\ st hash F (beginning B) (map fst B) src'.
  Proof.
    intros E (A' & B' & E' & S). destruct (st_ok hash F _ _ _ S) as [SO SP]. destruct (st_fields _ _ _ S) as (F1 & F2 & F3 & F4 & F5).
    destruct (split_at _ _ E) as (CH & _ & P). unfold Seek. rewrite SO. cbn [negb]. rewrite SP.
    destruct (Z.eqb_spec (beginning B') (beginning B)) as [EB|NB].
    - destruct (split_unique _ _ _ _ E' E EB) as [-> ->]. eauto.
    - unfold src_seek. pose proof (begin_le _ _ E). destruct (Z.leb_spec (beginning B) (zlen F)); [|lia]. cbn [negb].
      assert (CB : IsPossibleChunkBoundary (beginning B) = true).
      { apply IsPossibleChunkBoundary_iff. destruct B as [|x B].
        - cbn [beginning]. destruct (rev qr) as [|y l] eqn:RV.
          + assert (qr = []) as QN by (rewrite <- (rev_involutive qr), RV; reflexivity). pose proof FC as FC'. rewrite QN in FC'. cbn in FC'. assert (Z0 : zlen F = 0) by (inversion FC'; subst; try (symmetry; assumption); try reflexivity; try assumption). rewrite Z0. left. reflexivity.
          + assert (QS : qr = rev l ++ [y]) by (rewrite <- (rev_involutive qr), RV; reflexivity). pose proof (split_end (rev l) y [] QS) as EE. cbn [beginning] in EE. rewrite <- EE.
            apply (nrec_end hash F (fst y)). apply seek_in. rewrite QS. apply in_or_app; right; left; reflexivity.
        - cbn [beginning]. apply (so_b _ _ _ (seek_in x ltac:(rewrite E; apply in_or_app; right; left; reflexivity))). }
      rewrite CB. cbn [negb]. eexists. split; [reflexivity|].
      apply (fresh_st hash hash_range F qs0 FS); try assumption; [apply (incl_B _ _ E)|]. constructor; cbn; auto.
  Qed.

  Lemma set_index_rel A x C j k d : qr = A ++ x :: C -> base d -> rd_begin d = q_begin (fst x) -> rd_dec d = holds (snd x) j ->
    st hash F (beginning C) (map fst C) (rd_src d) -> 0 <= k ->
    exists d', set_index k d = Some (true, d') /\ rel (nrecs A + Z.min k (zlen (snd x))) d'.
  Proof.
    intros E BA RB RD S K. unfold set_index. rewrite RD, SetIndex_holds by assumption. eexists. split; [reflexivity|].
    pose proof (zlen_nonneg (snd x)). apply (rel_inside A x C); cbn [put_last put_dec rd_begin rd_dec rd_src]; try assumption; try reflexivity; try lia. destruct BA; constructor; assumption.
  Qed.
  Lemma set_index_clear A B k d : qr = A ++ B -> base d -> rd_begin d = beginning B -> rd_dec d = ClearDecoder ->
    st hash F (beginning B) (map fst B) (rd_src d) -> 0 <= k -> exists d', set_index k d = Some (true, d') /\ rel (nrecs A) d'.
  Proof.
    intros E BA RB RD S K. unfold set_index. rewrite RD. change ClearDecoder with (holds [] 0). rewrite SetIndex_holds by assumption. eexists. split; [reflexivity|].
    replace (Z.min k (zlen [])) with 0 by (change (zlen (@nil (list Z))) with 0; lia). apply (rel_between A B); cbn; try assumption; [destruct BA; constructor; assumption|reflexivity].
  Qed.
  Lemma read_and_set A x C k (f : record_reader -> Z) d : qr = A ++ x :: C -> base d -> st hash F (q_begin (fst x)) (fst x :: map fst C) (rd_src d) -> 0 <= k ->
    (forall d', rd_begin d' = q_begin (fst x) -> f d' = k) ->
    exists d', read_chunk_and_set_index hash decompress transpose_decode F f d = Some (true, d') /\ rel (nrecs A + Z.min k (zlen (snd x))) d'.
  Proof.
    intros E BA S K FK. unfold read_chunk_and_set_index. destruct (read_chunk A (x :: C) d E BA S) as (d' & -> & B1 & B2 & B3 & B4 & B5).
    rewrite (FK d' B2). apply (set_index_rel A x C 0); assumption.
  Qed.

  Lemma base_put_last b d : base d -> base (put_last b d).
  Proof. intros []; constructor; assumption. Qed.

  (** Where a chunk begins. *)
  Lemma find_chunk b : In b (map fst (vw qr)) -> exists A x C, qr = A ++ x :: C /\ q_begin (fst x) = b.
  Proof.
    unfold vw. rewrite map_map. cbn. intros I. apply in_map_iff in I as (x & <- & X). apply in_split in X as (A & C & ->). eauto.
  Qed.

  (** Seek(RecordPosition) *)
  Lemma seek_to A x C k i d : qr = A ++ x :: C -> 0 <= k -> rel i d ->
    exists d', RR_SeekTo hash decompress transpose_decode F (q_begin (fst x)) k d = Some (true, d') /\ rel (nrecs A + Z.min k (zlen (snd x))) d'.
  Proof.
    intros E K R. pose proof (rel_idle _ _ R) as ID. pose proof (rel_base _ _ R) as BA. unfold RR_SeekTo. rewrite (base_ok _ (base_put_last false d BA)). cbn [negb put_last rd_begin rd_src].
    pose proof (zlen_nonneg (snd x)) as ZN.
    destruct (Z.eqb_spec (q_begin (fst x)) (rd_begin d)) as [EB|NB].
    - destruct R as [A' B' d E' _ RB RD S|A' x' C' j d E' _ RB RD J S].
      + rewrite RB in EB. change (q_begin (fst x)) with (beginning (x :: C)) in EB. destruct (split_unique _ _ _ _ E E' EB) as [<- <-].
        destruct (st_ok hash F _ _ _ S) as [_ SP]. rewrite SP, RB, Z.ltb_irrefl, orb_false_r.
        destruct (Z.eqb_spec k 0) as [->|NK].
        * rewrite Z.min_l, Z.add_0_r by lia. apply (set_index_clear A (x :: C)); try assumption; try lia. apply base_put_last; assumption.
        * apply (read_and_set A x C); try assumption; auto. apply base_put_last; assumption.
      + rewrite RB in EB. assert (A = A' /\ x = x' /\ C = C') as (<- & <- & <-).
        { destruct (split_unique A (x :: C) A' (x' :: C') E E' EB) as [-> X]. inversion X; auto. }
        destruct (st_ok hash F _ _ _ S) as [_ SP].
        assert (LT : rd_begin d < r_pos (rd_src d)).
        { rewrite SP, RB. assert (IX : In x (A ++ [x])) by (apply in_or_app; right; left; reflexivity).
          apply (before_place (A ++ [x]) C x); [rewrite <- app_assoc; exact E|exact IX]. }
        replace (rd_begin d <? r_pos (rd_src d)) with true by (symmetry; apply Z.ltb_lt; exact LT). rewrite orb_true_r.
        apply (set_index_rel A x C j); try assumption. apply base_put_last; assumption.
    - destruct (src_seek_ok A (x :: C) (rd_src d) E ID) as (src' & SK & S'). cbn [beginning] in SK. rewrite SK. cbn [negb].
      destruct (Z.eqb_spec k 0) as [->|NK].
      + eexists. split; [reflexivity|]. rewrite Z.min_l, Z.add_0_r by lia. destruct (st_ok hash F _ _ _ S') as [_ SP].
        apply (rel_between A (x :: C)); cbn; try assumption; try reflexivity. destruct BA; constructor; assumption.
      + apply (read_and_set A x C); try assumption; auto. destruct BA; constructor; assumption.
  Qed.
  Lemma seek_to_end i d : rel i d -> exists d', RR_SeekTo hash decompress transpose_decode F (zlen F) 0 d = Some (true, d') /\ rel (nrecs qr) d'.
  Proof.
    intros R. pose proof (rel_idle _ _ R) as ID. pose proof (rel_base _ _ R) as BA. unfold RR_SeekTo. rewrite (base_ok _ (base_put_last false d BA)). cbn [negb put_last rd_begin rd_src].
    assert (EN : qr = qr ++ []) by (rewrite app_nil_r; reflexivity).
    destruct (Z.eqb_spec (zlen F) (rd_begin d)) as [EB|NB].
    - cbn [Z.eqb orb]. destruct R as [A' B' d E' _ RB RD S|A' x' C' j d E' _ RB RD J S].
      + rewrite RB in EB. change (zlen F) with (beginning []) in EB. destruct (split_unique _ _ _ _ EN E' EB) as [<- <-].
        apply (set_index_clear qr []); try assumption; try lia. apply base_put_last; assumption.
      + exfalso. assert (IX : In x' (A' ++ [x'])) by (apply in_or_app; right; left; reflexivity).
        assert (E2 : qr = (A' ++ [x']) ++ C') by (rewrite <- app_assoc; exact E').
        destruct (before_place (A' ++ [x']) C' x' E2 IX) as [_ LT]. pose proof (begin_le _ _ E2). lia.
    - destruct (src_seek_ok qr [] (rd_src d) EN ID) as (src' & SK & S'). cbn [beginning] in SK. rewrite SK. cbn [negb Z.eqb].
      eexists. split; [reflexivity|]. destruct (st_ok hash F _ _ _ S') as [_ SP].
      apply (rel_between qr []); cbn; try assumption; try reflexivity. destruct BA; constructor; assumption.
  Qed.
  Lemma count_before A x C k : qr = A ++ x :: C -> 0 <= k ->
    count (fun q => before q (q_begin (fst x), k)) (positions_of (vw qr)) = nrecs A + Z.min k (zlen (snd x)).
  Proof.
    intros E K. apply (count_inside _ A x C); try assumption.
    - intros p I. destruct (pos_before A (x :: C) p E I) as (H & _). cbn [beginning] in H. unfold before. cbn [fst snd]. destruct (Z.ltb_spec (fst p) (q_begin (fst x))); [reflexivity|lia].
    - intros p I. assert (E' : qr = (A ++ [x]) ++ C) by (rewrite <- app_assoc; exact E). destruct (pos_after _ _ p E' I) as (H & _).
      assert (IX : In x (A ++ [x])) by (apply in_or_app; right; left; reflexivity). destruct (before_place _ _ x E' IX) as [_ LT].
      unfold before. cbn [fst snd]. destruct (Z.ltb_spec (fst p) (q_begin (fst x))); [lia|]. destruct (Z.eqb_spec (fst p) (q_begin (fst x))); [lia|]. reflexivity.
    - intros i I. unfold before. cbn [fst snd]. rewrite Z.ltb_irrefl, Z.eqb_refl. reflexivity.
  Qed.
  Lemma count_before_end : count (fun q => before q (zlen F, 0)) (positions_of (vw qr)) = nrecs qr.
  Proof.
    apply (count_place _ qr []); [rewrite app_nil_r; reflexivity| |intros p []].
    intros p I. destruct (pos_before qr [] p ltac:(rewrite app_nil_r; reflexivity) I) as (H & _). cbn [beginning] in H. unfold before. cbn [fst snd].
    destruct (Z.ltb_spec (fst p) (zlen F)); [reflexivity|lia].
  Qed.

  (** Where SeekToChunk goes. *)
  Lemma map_split {X Y} (f : X -> Y) : forall l a b, map f l = a ++ b -> exists la lb, l = la ++ lb /\ map f la = a /\ map f lb = b.
  Proof.
    intros l a. revert l. induction a as [|y a IH]; intros l b E; [exists [], l; auto|].
    destruct l as [|x l]; [discriminate E|]. cbn in E. inversion E as [[E1 E2]]. destruct (IH _ _ E2) as (la & lb & -> & <- & <-). exists (x :: la), lb. auto.
  Qed.
  Lemma seek_chunk w pos src : idle src -> 0 <= pos <= zlen F ->
    exists A B src', qr = A ++ B /\ SeekToChunk hash F w pos src = Some (true, src') /\ st hash F (beginning B) (map fst B) src' /\
      Forall (fun x => stops w pos (fst x) = false) A /\ match B with [] => True | x :: _ => stops w pos (fst x) = true end.
  Proof.
    intros (A0 & B0 & E0 & S0) P. destruct (split_at _ _ E0) as (C0 & CA0 & P0).
    assert (EQ : qs0 = map fst A0 ++ map fst B0) by (rewrite <- map_app; f_equal; exact E0).
    destruct (seek_spec hash hash_range F qs0 FC FS flen w pos _ _ _ src ltac:(lia) EQ C0 CA0 P0 S0) as (b & src' & SK & (qs1 & qs2 & E2 & N1 & X)).
    destruct (map_split fst qr qs1 qs2 E2) as (A & B & EAB & <- & <-). exists A, B, src'. split; [exact EAB|].
    assert (NA : Forall (fun x => stops w pos (fst x) = false) A) by (rewrite Forall_forall in *; intros x I; apply N1, in_map, I).
    destruct B as [|x B]; cbn [map] in X.
    - destruct X as [-> X]. destruct (Z.leb_spec pos (zlen F)); [|lia]. auto.
    - destruct X as (X1 & -> & X2). auto.
  Qed.

  (** Seek(Position) *)
  Lemma count_numeric_inside A x C p : qr = A ++ x :: C -> q_begin (fst x) <= p <= beginning C ->
    count (fun q => numeric q <? p) (positions_of (vw qr)) = nrecs A + Z.min (p - q_begin (fst x)) (zlen (snd x)).
  Proof.
    intros E P. apply (count_inside _ A x C); try assumption; [lia|intros q I|intros q I|intros i I].
    - destruct (pos_before A (x :: C) q E I) as (_ & H & _). cbn [beginning] in H. apply Z.ltb_lt. lia.
    - assert (E' : qr = (A ++ [x]) ++ C) by (rewrite <- app_assoc; exact E). destruct (pos_after _ _ q E' I) as (_ & H & _). apply Z.ltb_ge. lia.
    - unfold numeric. cbn [fst snd]. destruct (Z.ltb_spec (q_begin (fst x) + i) p), (Z.ltb_spec i (p - q_begin (fst x))); try reflexivity; lia.
  Qed.
  Lemma seek_numeric p i d : 0 <= p <= zlen F -> rel i d ->
    exists d', RR_Seek hash decompress transpose_decode F p d = Some (true, d') /\ rel (count (fun q => numeric q <? p) (positions_of (vw qr))) d'.
  Proof.
    intros P R. pose proof (rel_idle _ _ R) as ID. pose proof (rel_base _ _ R) as BA. unfold RR_Seek. rewrite (base_ok _ (base_put_last false d BA)). cbn [negb put_last rd_begin rd_src].
    destruct (Z.leb_spec (rd_begin d) p) as [L1|L1], (Z.leb_spec p (r_pos (rd_src d))) as [L2|L2]; cbn [andb].
    2,3,4: (destruct (seek_chunk kContaining p (rd_src d) ID P) as (A & B & src' & E & -> & S & NA & NB); cbn [negb]; destruct (st_ok hash F _ _ _ S) as [_ SP];
      rewrite SP;
      assert (BEF : forall q, In q (positions_of (vw A)) -> (numeric q <? p) = true);
      [intros q I; apply in_positions in I as (c & I1 & I2 & I3); apply in_map_iff in I1 as (y & <- & Y); cbn in I2, I3; rewrite Forall_forall in NA; specialize (NA y Y);
       assert (IY : In y qr) by (rewrite E; apply in_or_app; auto); destruct (dec_in y IY) as [_ DL]; unfold stops in NA; apply orb_false_iff in NA as [N1 N2];
       unfold numeric; rewrite I2; apply Z.ltb_lt; lia|];
      destruct (Z.leb_spec p (beginning B)) as [LB|LB];
      [eexists; split; [reflexivity|];
       rewrite (count_place _ A B E BEF) by (intros q I; destruct (pos_after A B q E I) as (_ & H & _); apply Z.ltb_ge; lia);
       apply (rel_between A B); cbn; try assumption; try reflexivity; destruct BA; constructor; assumption|];
      destruct B as [|x C]; [cbn [beginning] in LB; lia|]; cbn [beginning] in LB;
      assert (IX : In x (A ++ [x])) by (apply in_or_app; right; left; reflexivity);
      assert (E' : qr = (A ++ [x]) ++ C) by (rewrite <- app_assoc; exact E);
      destruct (before_place _ _ x E' IX) as [BX _];
      assert (IY : In x qr) by (rewrite E; apply in_or_app; right; left; reflexivity); destruct (dec_in x IY) as [_ DL];
      unfold stops in NB; destruct (Z.leb_spec p (q_begin (fst x))); [lia|]; cbn [orb] in NB; apply Z.ltb_lt in NB;
      rewrite (count_numeric_inside A x C p E) by lia;
      apply (read_and_set A x C); try assumption; [destruct BA; constructor; assumption|lia|pose proof (so_p _ _ _ (seek_in x IY)); intros d' ->; apply u64_small; lia]).
    destruct R as [A B d E _ RB RD S|A x C j d E _ RB RD J S]; destruct (st_ok hash F _ _ _ S) as [_ SP]; rewrite SP in L2; rewrite RB in L1 |- *.
    - assert (p = beginning B) as -> by lia. rewrite Z.sub_diag. change (u64 0) with 0.
      rewrite (count_place _ A B E).
      + apply (set_index_clear A B); try assumption; try lia. apply base_put_last; assumption.
      + intros q I. destruct (pos_before A B q E I) as (_ & H & _). apply Z.ltb_lt; lia.
      + intros q I. destruct (pos_after A B q E I) as (_ & H & _). apply Z.ltb_ge; lia.
    - rewrite u64_small; [|pose proof (seek_in x ltac:(rewrite E; apply in_or_app; right; left; reflexivity)) as SO; pose proof (so_p _ _ _ SO); lia].
      rewrite (count_numeric_inside A x C p E) by lia. apply (set_index_rel A x C j); try assumption; [apply base_put_last; assumption|lia].
  Qed.

  (** SeekBack *)
  Lemma back_target A x C src : qr = A ++ x :: C -> idle src ->
    exists src', SeekToChunk hash F kBefore (beginning C - 1) src = Some (true, src') /\ st hash F (q_begin (fst x)) (fst x :: map fst C) src'.
  Proof.
    intros E ID. assert (E' : qr = (A ++ [x]) ++ C) by (rewrite <- app_assoc; exact E).
    assert (IX : In x (A ++ [x])) by (apply in_or_app; right; left; reflexivity). destruct (before_place _ _ x E' IX) as [_ LT].
    pose proof (begin_le _ _ E') as LE. destruct (split_at _ _ E) as (_ & _ & P). cbn [beginning] in P.
    destruct (seek_chunk kBefore (beginning C - 1) src ID ltac:(lia)) as (A2 & B2 & src' & E2 & SK & S & NA & NB). exists src'. split; [exact SK|].
    assert (EB : beginning B2 = q_begin (fst x)).
    { assert (XI : In x qr) by (rewrite E; apply in_or_app; right; left; reflexivity). rewrite E2 in XI. apply in_app_or in XI as [XA|XB].
      - exfalso. rewrite Forall_forall in NA. specialize (NA x XA). unfold stops in NA. apply orb_false_iff in NA as [_ N2]. rewrite (split_end _ _ _ E) in N2. apply Z.ltb_ge in N2. lia.
      - pose proof (after_place A2 B2 x E2 XB) as LB.
        destruct B2 as [|y B2]; [destruct XB|]. cbn [beginning] in *. 
        destruct (Z.eq_dec (q_begin (fst y)) (q_begin (fst x))) as [EQ|NE]; [exact EQ|exfalso].
        assert (YI : In y qr) by (rewrite E2; apply in_or_app; right; left; reflexivity).
        assert (YA : In y A).
        { rewrite E in YI. apply in_app_or in YI as [YA|YB]; [exact YA|]. pose proof (after_place A (x :: C) y E YB) as LY. cbn [beginning] in LY. lia. }
        pose proof (split_end _ _ _ E2) as EE. 
        destruct (split_at _ _ E) as (_ & FA & _). rewrite Forall_forall in FA. specialize (FA (fst y) (in_map fst _ _ YA)). cbn [beginning] in FA.
        unfold stops in NB. apply orb_true_iff in NB as [NB|NB]; [apply Z.leb_le in NB|apply Z.ltb_lt in NB]; lia. }
    change (q_begin (fst x)) with (beginning (x :: C)) in EB. destruct (split_unique _ _ _ _ E2 E EB) as [-> ->]. exact S.
  Qed.

  (** [m]: whether the empty chunk after [A] is about to be visited for the second time. *)
  Definition back_result (i : Z) (b : bool) (d : record_reader) : Prop := b = negb (i =? 0) /\ rel (Z.max 0 (i - 1)) d.
  Lemma back_loop : forall A B fuel d, qr = A ++ B -> base d -> idle (rd_src d) -> (2 * length A < fuel)%nat ->
    (rd_begin d = beginning B /\ rel (nrecs A) d \/
     exists A' x, A = A' ++ [x] /\ rd_begin d = q_begin (fst x) /\ snd x = [] /\ (S (2 * length A') < fuel)%nat /\ rel (nrecs A) d) ->
    exists b d', RR_SeekBack_loop hash decompress transpose_decode fuel F (beginning B) d = Some (b, d') /\ back_result (nrecs A) b d'.
  Proof.
    intros A. remember (length A) as n eqn:EN. revert A EN. induction n as [|n IH]; intros A EN B fuel d E BA ID FU ST; (destruct fuel as [|fuel]; [lia|]); cbn [RR_SeekBack_loop].
    - destruct A; [|discriminate EN]. cbn [app] in E. subst B. pose proof (chain_begin 0 qr FC) as <-. cbn [Z.ltb Z.compare]. eexists _, _. split; [reflexivity|].
      unfold back_result. change (nrecs []) with 0 in *. split; [reflexivity|]. destruct ST as [[_ R]|(A' & x & X & _)]; [exact R|destruct A'; discriminate X].
    - assert (exists A' x, A = A' ++ [x]) as (A' & x & EA).
      { destruct (rev A) as [|x l] eqn:RV; [assert (A = []) by (rewrite <- (rev_involutive A), RV; reflexivity); subst; discriminate EN|].
        exists (rev l), x. rewrite <- (rev_involutive A), RV. reflexivity. }
      assert (E' : qr = A' ++ x :: B) by (rewrite E, EA, <- app_assoc; reflexivity).
      assert (IX : In x A) by (rewrite EA; apply in_or_app; right; left; reflexivity). destruct (before_place _ _ x E IX) as [_ LT].
      destruct (split_at _ _ E') as (_ & _ & P). cbn [beginning] in P.
      destruct (Z.ltb_spec 0 (beginning B)); [|lia].
      destruct (back_target A' x B (rd_src d) E' ID) as (src' & -> & S'). cbn [negb put_src rd_begin].
      assert (BA' : base (put_src src' d)) by (destruct BA; constructor; assumption).
      destruct (read_chunk A' (x :: B) (put_src src' d) E' BA' S') as (d' & -> & B1 & B2 & B3 & B4 & B5).
      rewrite B3. cbn [dc_num_records holds dc_limits]. unfold dc_num_records. cbn [dc_limits holds]. rewrite SimpleChunkProof.zlen_ends.
      assert (NA : nrecs A = nrecs A' + zlen (snd x)) by (rewrite EA, nrecs_app, nrecs_one; reflexivity).
      pose proof (nrecs_nonneg A') as NN. pose proof (zlen_nonneg (snd x)) as NX.
      assert (ID' : idle (rd_src d')) by (exists A, B; auto).
      assert (LA : length A = S (length A')) by (rewrite EA, app_length; cbn; lia).
      destruct (Z.ltb_spec 0 (zlen (snd x))) as [HX|HX].
      + destruct (set_index_rel A' x B 0 (zlen (snd x) - 1) d' E' B1 B2 B3 B5 ltac:(lia)) as (d'' & -> & R). eexists _, _. split; [reflexivity|].
        unfold back_result. destruct (Z.eqb_spec (nrecs A) 0); [lia|]. split; [reflexivity|].
        replace (Z.max 0 (nrecs A - 1)) with (nrecs A' + Z.min (zlen (snd x) - 1) (zlen (snd x))) by lia. exact R.
      + assert (SX : snd x = []) by (apply zlen_0_nil; lia).
        assert (RD' : rel (nrecs A) d').
        { replace (nrecs A) with (nrecs A' + 0) by (rewrite NA, SX; cbn; lia). apply (rel_inside A' x B); try assumption. rewrite SX. cbn. lia. }
        destruct ST as [[RB R]|(A2 & x2 & EA2 & RB & _ & FU2 & R)].
        * (* the first visit: chunk_pos is still the end of the empty chunk *)
          rewrite RB. destruct fuel as [|fuel]; [lia|]. cbn [RR_SeekBack_loop]. destruct (Z.ltb_spec 0 (beginning B)); [|lia].
          destruct (back_target A' x B (rd_src d') E' ID') as (src2 & -> & S2). cbn [negb put_src rd_begin].
          assert (BA2 : base (put_src src2 d')) by (destruct B1; constructor; assumption).
          destruct (read_chunk A' (x :: B) (put_src src2 d') E' BA2 S2) as (d2 & -> & D1 & D2 & D3 & D4 & D5).
          rewrite D3. unfold dc_num_records. cbn [dc_limits holds]. rewrite SimpleChunkProof.zlen_ends. destruct (Z.ltb_spec 0 (zlen (snd x))); [lia|].
          rewrite B2. change (q_begin (fst x)) with (beginning (x :: B)). replace (nrecs A) with (nrecs A') by lia.
          apply (IH A'); try assumption; try lia.
          -- exists A, B; auto.
          -- left. split; [exact D2|]. replace (nrecs A') with (nrecs A' + 0) by lia. apply (rel_inside A' x B); try assumption. rewrite SX. cbn. lia.
        * rewrite RB. assert (A2 = A' /\ x2 = x) as [-> ->] by (rewrite EA in EA2; apply app_inj_tail in EA2 as [-> ->]; auto).
          change (q_begin (fst x)) with (beginning (x :: B)). replace (nrecs A) with (nrecs A') by lia.
          apply (IH A'); try assumption; try lia.
          left. split; [exact B2|]. replace (nrecs A') with (nrecs A' + 0) by lia. apply (rel_inside A' x B); try assumption. rewrite SX. cbn. lia.
  Qed.

  Lemma seek_back i d : rel i d -> exists b d', RR_SeekBack hash decompress transpose_decode F d = Some (b, d') /\ back_result i b d'.
  Proof.
    intros R. pose proof (rel_idle _ _ R) as ID. pose proof (rel_base _ _ R) as BA. unfold RR_SeekBack. rewrite (base_ok _ BA). cbn [negb].
    assert (FUEL : forall A B, qr = A ++ B -> (2 * length A < S (S (length F)))%nat).
    { intros A B E. pose proof (chain_length qr 0 FC ltac:(lia)) as L. rewrite E, zlen_app in L. pose proof (zlen_nonneg B). unfold zlen in L. lia. }
    destruct R as [A B d E _ RB RD S|A x C j d E _ RB RD J S]; cbn [put_last rd_dec rd_begin]; rewrite RD; cbn [dc_index ClearDecoder holds Z.ltb Z.compare].
    - rewrite RB. apply back_loop; try assumption; [apply base_put_last; assumption|apply (FUEL A B E)|].
      left. split; [exact RB|]. apply (rel_between A B); try assumption. apply base_put_last; assumption.
    - destruct (Z.ltb_spec 0 j) as [JP|JP].
      + destruct (set_index_rel A x C j (j - 1) (put_last false d) E (base_put_last false d BA) RB RD S ltac:(lia)) as (d' & -> & R').
        eexists _, _. split; [reflexivity|]. unfold back_result. pose proof (nrecs_nonneg A). destruct (Z.eqb_spec (nrecs A + j) 0); [lia|]. split; [reflexivity|].
        replace (Z.max 0 (nrecs A + j - 1)) with (nrecs A + Z.min (j - 1) (zlen (snd x))) by lia. exact R'.
      + assert (j = 0) as -> by lia. rewrite RB. rewrite Z.add_0_r. change (q_begin (fst x)) with (beginning (x :: C)). apply back_loop; try assumption; [apply base_put_last; assumption|apply (FUEL A _ E)|].
        left. split; [exact RB|]. replace (nrecs A) with (nrecs A + 0) by lia. apply (rel_inside A x C); try assumption. apply base_put_last; assumption.
  Qed.

  (** Seek(pos()) *)
  Lemma reseek i d : rel i d -> exists d', RR_SeekTo hash decompress transpose_decode F (fst (rpos d)) (snd (rpos d)) d = Some (true, d') /\ rel i d'.
  Proof.
    intros R. pose proof R as R0.
    assert (AT : forall A B, qr = A ++ B -> exists d', RR_SeekTo hash decompress transpose_decode F (beginning B) 0 d = Some (true, d') /\ rel (nrecs A) d').
    { intros A B E. destruct B as [|x C].
      - rewrite app_nil_r in E. subst A. apply (seek_to_end i d R0).
      - pose proof (zlen_nonneg (snd x)). destruct (seek_to A x C 0 i d E ltac:(lia) R0) as (d' & SK & R'). rewrite Z.min_l, Z.add_0_r in R' by lia. eauto. }
    destruct R as [A B d E BA RB RD S|A x C j d E BA RB RD J S]; destruct (st_ok hash F _ _ _ S) as [_ SP]; unfold rpos; rewrite RD, (b_rec _ BA); unfold dc_num_records; cbn [dc_index dc_limits ClearDecoder holds orb].
    - change (zlen (@nil Z)) with 0. cbn [Z.ltb Z.compare orb fst snd]. rewrite SP. apply AT; assumption.
    - rewrite SimpleChunkProof.zlen_ends, orb_false_r. destruct (Z.ltb_spec j (zlen (snd x))) as [LJ|LJ]; cbn [fst snd].
      + rewrite RB. destruct (seek_to A x C j _ d E ltac:(lia) R0) as (d' & SK & R'). rewrite Z.min_l in R' by lia. eauto.
      + rewrite SP. assert (j = zlen (snd x)) as -> by lia. rewrite <- nrecs_one, <- nrecs_app. apply AT. rewrite <- app_assoc. exact E.
  Qed.

  (** ** Any sequence of calls *)
  Theorem step_refines c i d : call_ok (vw qr) (zlen F) c -> rel i d ->
    exists d', reader_step hash decompress transpose_decode F c d = Some (fst (cursor_step (vw qr) c i), d') /\ rel (snd (cursor_step (vw qr) c i)) d'.
  Proof.
    intros OK R. assert (I0 : 0 <= i) by (destruct R as [A B d E BA RB RD S|A x C j d E BA RB RD J S]; pose proof (nrecs_nonneg A); lia).
    destruct c as [|[b k]|p| |]; cbn [reader_step cursor_step call_ok fst snd] in *.
    - destruct (read_step i d R) as (o & d' & -> & RR & X). rewrite <- RR. destruct o as [r|]; destruct X as [-> X]; cbn [fst snd]; eauto.
    - destruct OK as [[IN K]|EQ].
      + destruct (find_chunk b IN) as (A & x & C & E & <-). destruct (seek_to A x C k i d E K R) as (d' & -> & R'). rewrite (count_before A x C k E K). eauto.
      + inversion EQ; subst b k. destruct (seek_to_end i d R) as (d' & -> & R'). rewrite count_before_end. eauto.
    - destruct (seek_numeric p i d OK R) as (d' & -> & R'). eauto.
    - destruct (seek_back i d R) as (b & d' & -> & -> & R'). destruct (Z.eqb_spec i 0) as [->|N]; cbn [negb fst snd] in *; eexists; (split; [reflexivity|]).
      + exact R'.
      + rewrite Z.max_r in R' by lia. exact R'.
    - destruct (reseek i d R) as (d' & -> & R'). eauto.
  Qed.
  Theorem run_refines cs : forall i d, Forall (call_ok (vw qr) (zlen F)) cs -> rel i d ->
    exists d', reader_run hash decompress transpose_decode F cs d = Some (cursor_run (vw qr) cs i, d') /\ rd_ok d' = true.
  Proof.
    induction cs as [|c cs IH]; intros i d OK R; cbn [reader_run cursor_run].
    - exists d. split; [reflexivity|]. apply base_ok, (rel_base _ _ R).
    - destruct (step_refines c i d (Forall_inv OK) R) as (d1 & -> & R1). destruct (cursor_step (vw qr) c i) as [o i1]. cbn [fst snd] in *.
      destruct (IH i1 d1 (Forall_inv_tail OK) R1) as (d' & -> & O). eauto.
  Qed.
  Lemma initial_rel : rel 0 NewRecordReader.
  Proof.
    change 0 with (nrecs []). apply (rel_between [] qr); try reflexivity; [constructor; reflexivity|exact (chain_begin 0 qr FC)|].
    rewrite <- (chain_begin 0 qr FC). apply (fresh_st hash hash_range F qs0 FS); try assumption; [apply incl_refl|lia|]. constructor; reflexivity.
  Qed.
End Reader.
