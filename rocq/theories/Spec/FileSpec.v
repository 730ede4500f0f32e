(** What a Riegeli/records file is, byte by byte, independently of the writer and the reader. *)
From Verif Require Import Base.Bytes Spec.BlockSpec.

Definition le64 (v : Z) : list Z := map (fun i => (v / 256 ^ Z.of_nat i) mod 256) (seq 0 8).

(** Bytes beginning at file position [pos], with the bytes of block headers removed. *)
Fixpoint strip_headers (pos : Z) (l : list Z) : list Z :=
  match l with
  | [] => []
  | b :: l' => if in_block_header pos then strip_headers (pos + 1) l' else b :: strip_headers (pos + 1) l'
  end.

(** A chunk: its type, number of records, decoded data size and data. *)
Record chunk_spec := Chunk { k_type : Z; k_nrec : Z; k_dsize : Z; k_data : list Z }.
Definition chunk_ok (k : chunk_spec) : Prop :=
  0 <= k_type k < 256 /\ 0 <= k_nrec k < 2 ^ 56 /\ 0 <= k_dsize k < 2 ^ 64 /\ zlen (k_data k) < 2 ^ 64.
(** The chunk every file begins with. *)
Definition signature_chunk : chunk_spec := Chunk 115 0 0 [].

(** A chunk placed in a file at positions [q_begin, q_end). *)
Record placed := Placed { q_begin : Z; q_end : Z; q_chunk : chunk_spec }.

Section FileSpec.
  Variable hash : list Z -> Z.

  (** The 40 bytes in front of the data of a chunk. *)
  Definition chunk_header_bytes (k : chunk_spec) : list Z :=
    let body := le64 (zlen (k_data k)) ++ le64 (hash (k_data k)) ++
                le64 (k_type k + 256 * k_nrec k) ++ le64 (k_dsize k) in
    le64 (hash body) ++ body.

  (** The block header at a block boundary inside a chunk: the hash of the rest, the distance from
      the beginning of the chunk, the distance to the end of the chunk. *)
  Definition block_header_bytes (previous next : Z) : list Z :=
    le64 (hash (le64 previous ++ le64 next)) ++ le64 previous ++ le64 next.

  (** The least position where a chunk with [payload] bytes (header and data) and [nrec] records,
      beginning at [p], may end. *)
  Definition least_chunk_end (p payload nrec e : Z) : Prop :=
    (chunk_boundary e /\ p + nrec <= e /\ p <= e /\ payload <= payload_between p e) /\
    (forall q, chunk_boundary q -> p + nrec <= q -> p <= q -> payload <= payload_between p q -> e <= q).

  (** [out] is the image of the chunk, occupying file positions [p, e). *)
  Definition chunk_layout (p e : Z) (k : chunk_spec) (out : list Z) : Prop :=
    zlen out = e - p /\
    least_chunk_end p (40 + zlen (k_data k)) (k_nrec k) e /\
    (exists pad, strip_headers p out = chunk_header_bytes k ++ k_data k ++ zeros pad) /\
    (forall K, p <= K < e -> K mod 65536 = 0 ->
       K + 24 <= e /\ zslice (K - p) 24 out = block_header_bytes (K - p) (e - K)).

  (** [out] is the image of consecutive chunks, occupying file positions [p, e). *)
  Inductive file_layout : Z -> list placed -> list Z -> Z -> Prop :=
  | file_nil p : file_layout p [] [] p
  | file_cons p e k qs out1 out2 E :
      chunk_layout p e k out1 -> file_layout e qs out2 E ->
      file_layout p (Placed p e k :: qs) (out1 ++ out2) E.

  (** [file] is a file whose chunks from position [p] on are [qs]; before [p] there may be anything. *)
  Record valid_file (p : Z) (qs : list placed) (file : list Z) : Prop := {
    v_start : 0 <= p /\ chunk_boundary p;
    v_ok : Forall (fun q => chunk_ok (q_chunk q)) qs;
    v_sig : p = 0 -> match qs with [] => True | q :: _ => q_chunk q = signature_chunk end;
    v_layout : exists pre out, file = pre ++ out /\ zlen pre = p /\ file_layout p qs out (zlen file);
    v_size : zlen file + 64 <= 2 ^ 64
  }.
End FileSpec.

(** What ReadChunk calls at moments when the file has the given lengths should return. *)
Fixpoint expected_reads (qs : list placed) (lens : list Z) : list (option chunk_spec) :=
  match lens with
  | [] => []
  | n :: lens' =>
      match qs with
      | q :: qs' =>
          if q_end q <=? n then Some (q_chunk q) :: expected_reads qs' lens' else None :: expected_reads qs lens'
      | [] => None :: expected_reads qs lens'
      end
  end.
