(** C41: records encoded into a transposed chunk are decoded. *)
From Coq Require Import Permutation.
From Verif Require Import Base.Bytes Model.Varint Model.Chunk Model.SimpleChunk Model.TransposeEncoder Model.TransposeDecoder Spec.RecordsSpec Proof.TransposeRound Proof.TransposeLimits.

(** C41: any records (serialized messages, nested in any way, or arbitrary bytes, in any mix), any compression, any bucket size, any order
    in which hash maps are iterated: the encoder does not fail, and the decoder, given the number of records and their total size (both
    are in the header of the chunk), returns their concatenation and their ends. *)
Theorem C41_round_trip : forall compress decompress order o rs,
  (forall t l, bytes l -> bytes (compress t l)) -> (forall t l, bytes l -> decompress t (compress t l) = Some l) ->
  (forall t l, Permutation (order t l) l) -> known_compression (o_ct o) = true ->
  Forall bytes rs -> zlen rs + 2 * total rs < 2 ^ 29 ->
  exists data, TransposeEncode compress order o rs = Some data /\
    (zlen data < 2 ^ 64 -> bytes data /\ TransposeDecode decompress data (zlen rs) (total rs) = Some (ends 0 rs, concat rs)).
Proof. exact transpose_round. Qed.
Print Assumptions C41_round_trip.

(** Without a bound on sizes the claim is false of the code.  A record which is not a message, with at least 2^32 bytes, is encoded (its
    length is written as a varint64), but whatever the header says it is not decoded (the length is read as a varint32). *)
Theorem C41_long_record_refuted : forall compress decompress order o r,
  (forall t l, bytes l -> bytes (compress t l)) -> (forall t l, bytes l -> decompress t (compress t l) = Some l) ->
  (forall t l, Permutation (order t l) l) -> known_compression (o_ct o) = true ->
  bytes r -> IsProtoMessage r = false -> 2 ^ 32 <= zlen r < 2 ^ 62 ->
  exists data, TransposeEncode compress order o [r] = Some data /\
    (zlen data < 2 ^ 64 -> bytes data /\ forall num_records size, TransposeDecode decompress data num_records size = None).
Proof. intros compress decompress order o r H1 H2 H3 H4. exact (long_record compress decompress order o H1 H2 H3 H4 r). Qed.
(** A message with one string field of [len] zeros: the decoder wants the string with its length prefix to fit in 32 bits. *)
Theorem C41_long_string_refuted : forall compress decompress order o len,
  (forall t l, bytes l -> bytes (compress t l)) -> (forall t l, bytes l -> decompress t (compress t l) = Some l) ->
  (forall t l, Permutation (order t l) l) -> known_compression (o_ct o) = true ->
  0 <= len < 2 ^ 32 -> 2 ^ 32 <= zlen (WriteVarint V32 len) + len ->
  exists data, TransposeEncode compress order o [10 :: WriteVarint V32 len ++ zeros len] = Some data /\
    (zlen data < 2 ^ 64 -> bytes data /\ forall num_records size, TransposeDecode decompress data num_records size = None).
Proof. intros compress decompress order o len H1 H2 H3 H4. exact (long_string compress decompress order o H1 H2 H3 H4 len). Qed.
Print Assumptions C41_long_record_refuted.
Print Assumptions C41_long_string_refuted.
(** Such records exist. *)
Example long_record_exists : bytes (0 :: zeros (2 ^ 32)) /\ IsProtoMessage (0 :: zeros (2 ^ 32)) = false /\ zlen (0 :: zeros (2 ^ 32)) = 2 ^ 32 + 1.
Proof. split; [constructor; [unfold is_byte; lia|apply bytes_zeros]|]. split; [unfold IsProtoMessage; cbn [is_proto_message]; reflexivity|]. rewrite zlen_cons, zlen_zeros. reflexivity. Qed.
Example long_string_exists : zlen (WriteVarint V32 (2 ^ 32 - 3)) + (2 ^ 32 - 3) = 2 ^ 32 + 2.
Proof. reflexivity. Qed.

(** Examples: messages with a varint, a fixed32, a string, a nested message in a nested message, a group; an empty record; bytes which are
    not a message.  Compression adds a byte. *)
Definition toy_compress (t : Z) (l : list Z) : list Z := 77 :: l.
Definition toy_decompress (t : Z) (l : list Z) : option (list Z) := match l with [] => None | x :: l' => if x =? 77 then Some l' else None end.
Definition toy_records : list (list Z) :=
  [ [8; 1; 18; 3; 97; 98; 99];
    [8; 150; 1; 29; 1; 2; 3; 4; 34; 6; 10; 2; 8; 5; 16; 7];
    [];
    [255; 255; 255];
    [8; 1; 18; 3; 97; 98; 99];
    [43; 8; 1; 44; 34; 0; 33; 1; 2; 3; 4; 5; 6; 7; 8];
    [8; 129; 0] ].
Definition rev_order (t : nat) (l : list (nat * dest_info)) : list (nat * dest_info) := rev l.
Definition toy_options (t : Z) : transpose_options := {| o_ct := t; o_bucket_size := 3 |}.
Example toy_round : forall t, In t [0; 98; 122; 115] ->
  match TransposeEncode toy_compress rev_order (toy_options t) toy_records with
  | Some data => TransposeDecode toy_decompress data 7 (zlen (concat toy_records)) = Some (ends 0 toy_records, concat toy_records)
  | None => False
  end.
Proof. intros t [<-|[<-|[<-|[<-|[]]]]]; vm_compute; reflexivity. Qed.
Example toy_hyps : Forall bytes toy_records /\ zlen toy_records + 2 * total toy_records < 2 ^ 29 /\ known_compression 98 = true /\
  (forall t l, Permutation (rev_order t l) l) /\ (forall t l, toy_decompress t (toy_compress t l) = Some l).
Proof.
  split; [|split; [|split; [|split]]].
  - unfold toy_records. repeat (constructor; [unfold bytes; repeat (constructor; [unfold is_byte; lia|]); constructor|]). constructor.
  - vm_compute. reflexivity.
  - reflexivity.
  - intros t l. apply Permutation_sym, Permutation_rev.
  - reflexivity.
Qed.
(** The encoding does look inside of messages: the columns of two messages with a number and a string (varints are kept without the bits
    which mark their ends; columns are filled from the end). *)
Example toy_columns :
  option_map (fun c => map (fun b => (b_type b, b_node b, b_data b)) (c_buffers c)) (add_records [[8; 150; 1; 18; 3; 97; 98; 99]; [8; 151; 1; 18; 1; 100]] 0 0 no_columns)
  = Some [(0, (kRoot, 8), [23; 1; 22; 1]); (3, (kRoot, 18), [1; 100; 3; 97; 98; 99])].
Proof. reflexivity. Qed.
