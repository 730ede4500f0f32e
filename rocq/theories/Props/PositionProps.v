(** C28-C29: text and binary formats of record positions. *)
From Verif Require Import Base.Bytes Model.Endian Model.RecordPosition Spec.RecordPositionSpec Proof.RecordPositionProof.

(** C28: the text is two decimal numbers; it is read back; positions which overflow are rejected; whatever is accepted is a position. *)
Theorem C28_text :
  (forall p, position_ok p -> FromString (ToString p) = Some p) /\
  (forall p, position_ok p -> exists x y, ToString p = x ++ 47 :: y /\ is_decimal (fst p) x /\ is_decimal (snd p) y) /\
  (forall a b x y, is_decimal a x -> is_decimal b y -> 0 <= a -> 0 <= b ->
     FromString (x ++ 47 :: y) = if a + b <? 2 ^ 64 then Some (a, b) else None) /\
  (forall s p, FromString s = Some p -> position_ok p).
Proof.
  split; [exact string_round_trip|]. split; [|split; [exact from_decimal|exact from_sound]].
  intros p (A & B & S). exists (StrCat (fst p)), (StrCat (snd p)). split; [reflexivity|]. split; apply StrCat_decimal; assumption.
Qed.

(** C29, except for the round trip of some positions (below): the binary format is read back; whatever is accepted is a position
    in the current or in the old format; byte strings are ordered as positions are, and so are positions by operator<. *)
Theorem C29_binary_partial :
  (forall p, position_ok p -> fst p < 2 ^ 42 \/ snd p < 2 ^ 42 -> FromBytes (ToBytes p) = Some p) /\
  (forall p, position_ok p -> zlen (ToBytes p) <> 16 -> FromBytes (ToBytes p) = Some p) /\
  (forall s p, bytes s -> FromBytes s = Some p ->
     position_ok p /\ (s = ToBytes p \/ s = WriteBigEndian 8 (fst p) ++ WriteBigEndian 8 (snd p))).
Proof. split; [exact bytes_round_trip|]. split; [exact bytes_read|exact bytes_sound]. Qed.
Theorem C29_order :
  (forall p q, position_ok p -> position_ok q -> (position_lt p q <-> lex_lt (ToBytes p) (ToBytes q))) /\
  (forall p q, match rp_compare p q with Lt => position_lt p q | Eq => p = q | Gt => position_lt q p end) /\
  (forall p q, rp_equal p q = true <-> p = q).
Proof.
  split; [|split; [exact compare_spec|]].
  - intros p q P Q. split; [apply bytes_order; assumption|]. intros L. pose proof (compare_spec p q) as C. destruct (rp_compare p q); [|exact C|].
    + subst q. destruct (lex_lt_irrefl _ L).
    + destruct (lex_lt_irrefl (ToBytes p)). eapply lex_lt_trans; [exact L|]. apply bytes_order; assumption.
  - intros [a b] [c d]. unfold rp_equal. cbn. rewrite Bool.andb_true_iff, !Z.eqb_eq. split; [intros [-> ->]; reflexivity|intros [= -> ->]; auto].
Qed.
(** The round trip fails when the encoding happens to have the size of the old format. *)
Theorem C29_round_trip_refuted : exists p q, position_ok p /\ position_ok q /\ FromBytes (ToBytes p) = Some q /\ p <> q.
Proof. exists (2 ^ 56, 2 ^ 42), (0xff01000000000000, 0x00fc040000000000). split; [vm_compute; intuition discriminate|]. split; [vm_compute; intuition discriminate|]. split; [vm_compute; reflexivity|discriminate]. Qed.
Print Assumptions C28_text.
Print Assumptions C29_binary_partial.
Print Assumptions C29_order.
Print Assumptions C29_round_trip_refuted.

Example C28_instance : ToString (12345678901234567890, 7) = [49;50;51;52;53;54;55;56;57;48;49;50;51;52;53;54;55;56;57;48;47;55] /\
  FromString [32; 49; 50; 47; 43; 51] = Some (12, 3) /\ FromString [49; 47] = None /\ FromString [49; 47; 45; 49] = None /\
  FromString [49;56;52;52;54;55;52;52;48;55;51;55;48;57;53;53;49;54;49;53;47;49] = None.
Proof. vm_compute. repeat split. Qed.
Example C29_instance : position_ok (2 ^ 40, 300) /\ ToBytes (2 ^ 40, 300) = [249; 0; 0; 0; 0; 0; 129; 44] /\ FromBytes [249; 0; 0; 0; 0; 0; 129; 44] = Some (2 ^ 40, 300).
Proof. split; [unfold position_ok; cbn; lia|]. vm_compute. split; reflexivity. Qed.
