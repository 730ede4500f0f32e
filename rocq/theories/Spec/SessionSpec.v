(** Sessions of writing: what was written, what was observed, and which options and sizes are covered. *)
From Verif Require Import Base.Bytes Model.SimpleChunk Model.RecordWriter Spec.RecordsSpec.

(** The records given to WriteRecord. *)
Definition written (cs : list call) : list (list Z) :=
  flat_map (fun c => match c with CallWrite r => [r] | CallFlush => [] end) cs.
Definition all_written (ss : list (options * list call)) : list (list Z) := flat_map (fun s => written (snd s)) ss.

(** What is observed after a call: its result, LastPos(), Pos(). *)
Definition result_of (o : observation) : bool := fst (fst o).
Definition last_of (o : observation) : option (Z * Z) := snd (fst o).
Definition pos_of (o : observation) : Z * Z := snd o.
(** LastPos() observed just after each WriteRecord. *)
Fixpoint write_positions (cs : list call) (os : list observation) : list (option (Z * Z)) :=
  match cs, os with
  | CallWrite _ :: cs', o :: os' => last_of o :: write_positions cs' os'
  | CallFlush :: cs', _ :: os' => write_positions cs' os'
  | _, _ => []
  end.
Fixpoint all_positions (ss : list (options * list call)) (rs : list (list observation * bool)) : list (option (Z * Z)) :=
  match ss, rs with
  | (_, cs) :: ss', (os, _) :: rs' => write_positions cs os ++ all_positions ss' rs'
  | _, _ => []
  end.
(** The number of records given to the writers before the end of call [j] of session [i]. *)
Definition records_before (ss : list (options * list call)) (i j : nat) : Z :=
  zlen (all_written (firstn i ss)) + zlen (written (firstn (S j) (snd (nth i ss (MkOptions false 0 None None 0 0, []))))).
(** Every call, and Close(), returned true. *)
Definition all_true (rs : list (list observation * bool)) : Prop :=
  Forall (fun r => Forall (fun o => result_of o = true) (fst r) /\ snd r = true) rs.

(** Options covered: paddings for which WritePadding works (C09), a known compression algorithm, chunks of transposed records and
    metadata of less than 2^28 bytes (sizes are 32-bit in the transposed encoding, see C41). *)
Definition padding_ok (p : Z) : Prop :=
  0 <= p <= 1 \/ 64 <= p /\ 65536 mod p = 0 \/ 65536 <= p /\ p mod 65536 = 0.
Record options_ok (o : options) : Prop := {
  oo_compression : known_compression (o_compression o) = true;
  oo_chunk_size : match o_chunk_size o with Some n => 0 <= n < 2 ^ 64 | None => True end;
  oo_transpose : o_transpose o = true -> effective_chunk_size o <= 2 ^ 28;
  oo_metadata : match o_metadata o with Some m => bytes m /\ zlen m < 2 ^ 28 | None => True end;
  oo_initial : padding_ok (o_initial_padding o);
  oo_final : padding_ok (o_final_padding o) }.
Definition record_ok (o : options) (r : list Z) : Prop := bytes r /\ (o_transpose o = true -> zlen r < 2 ^ 28).
Definition write_ok (o : options) (c : call) : Prop := match c with CallWrite r => record_ok o r | CallFlush => True end.

(** A generous bound on what is written; the theorems assume that it is less than 2^62. *)
Definition call_size (o : options) (c : call) : Z :=
  match c with
  | CallWrite r => 2 ^ 23 + 8192 * zlen r
  | CallFlush => 2 ^ 23 + 60 * o_final_padding o
  end.
Definition calls_size (o : options) (cs : list call) : Z := fold_right (fun c a => call_size o c + a) 0 cs.
Definition opening_size (o : options) : Z :=
  2 ^ 24 + 8192 * (match o_metadata o with Some m => zlen m | None => 0 end) + 60 * o_initial_padding o.
Definition session_size (s : options * list call) : Z :=
  opening_size (fst s) + calls_size (fst s) (snd s) + 2 ^ 23 + 60 * o_final_padding (fst s).
Definition sessions_size (ss : list (options * list call)) : Z := fold_right (fun s a => session_size s + a) 0 ss.
Definition session_ok (s : options * list call) : Prop := options_ok (fst s) /\ Forall (write_ok (fst s)) (snd s).

(** Assumptions about the external algorithms: compression, and the transposed encoding. *)
Record codecs (compress : Z -> list Z -> list Z) (decompress : Z -> list Z -> option (list Z))
    (transpose_encode : options -> list (list Z) -> list Z)
    (transpose_decode : list Z -> Z -> Z -> option (list Z * list Z)) : Prop := {
  cc_bytes : forall t l, bytes l -> bytes (compress t l);
  cc_inverse : forall t l, bytes l -> decompress t (compress t l) = Some l;
  cc_size : forall t l, bytes l -> zlen (compress t l) <= 2 * zlen l + 2 ^ 7;
  ct_inverse : forall o rs, known_compression (o_compression o) = true -> Forall bytes rs -> zlen rs + 2 * zlen (concat rs) < 2 ^ 29 ->
    transpose_decode (transpose_encode o rs) (zlen rs) (zlen (concat rs)) = Some (ends 0 rs, concat rs);
  ct_size : forall o rs, known_compression (o_compression o) = true -> Forall bytes rs -> zlen rs + 2 * zlen (concat rs) < 2 ^ 29 ->
    zlen (transpose_encode o rs) <= 4096 * (zlen rs + zlen (concat rs)) + 2 ^ 12 }.
