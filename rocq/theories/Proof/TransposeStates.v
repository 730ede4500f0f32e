(** The states written to the header are read back. *)
From Coq Require Import Permutation.
From Verif Require Import Base.Bytes Model.Endian Model.Varint Model.Chunk Model.SimpleChunk Model.TransposeEncoder Model.TransposeDecoder.
From Verif Require Import Spec.VarintSpec Proof.VarintProof Proof.SimpleChunkProof Proof.TransposeColumns Proof.TransposeBuffers Proof.TransposePath.

Lemma V32_bytes v : 0 <= v < 2 ^ 32 -> bytes (WriteVarint V32 v).
Proof. intros H. apply is_varint_bytes, WriteVarint_spec; [apply V32_ok|cbn [vbits V32]; lia]. Qed.
Lemma V32_read v rest : 0 <= v < 2 ^ 32 -> bytes rest -> ReadVarint V32 (WriteVarint V32 v ++ rest) = Some (v, rest).
Proof. intros H B. apply ReadVarint_Write; [apply V32_ok|cbn [vbits V32]; lia|exact B]. Qed.
Lemma read_varints_ok (A : Type) (f : A -> Z) l H : Forall (fun a => 0 <= f a < 2 ^ 32) l -> bytes H ->
  bytes (flat_map (fun a => WriteVarint V32 (f a)) l ++ H) /\
  read_varints V32 (length l) (flat_map (fun a => WriteVarint V32 (f a)) l ++ H) = Some (map f l, H).
Proof.
  intros F HH. induction F as [|a l Ha Hl [B IH]]; cbn [flat_map length read_varints map]; [auto|].
  rewrite <- app_assoc. split; [apply bytes_app; split; [apply V32_bytes, Ha|exact B]|]. rewrite V32_read by assumption. rewrite IH. reflexivity.
Qed.
Lemma read_index_ok n i H : (i < n)%nat -> Z.of_nat n < 2 ^ 32 -> bytes H ->
  bytes (WriteVarint V32 (Z.of_nat i) ++ H) /\ read_buffer_index n (WriteVarint V32 (Z.of_nat i) ++ H) = Some (i, H).
Proof.
  intros Hi Hn HH. split; [apply bytes_app; split; [apply V32_bytes; lia|exact HH]|]. unfold read_buffer_index. rewrite V32_read by (try assumption; lia).
  destruct (Z.leb_spec (Z.of_nat n) (Z.of_nat i)); [lia|]. rewrite Nat2Z.id. reflexivity.
Qed.
Definition counts_subtype (tag : Z) : bool := ValidTag tag && match HasSubtype tag with Some b => b | None => false end.
Lemma index_of_pos c id i : buffer_pos c id = Some i -> index_of (buffer_ids c) id = i /\ (i < length (buffer_ids c))%nat.
Proof. rewrite buffer_pos_index. intros E. unfold index_of. rewrite E. destruct (find_index_some _ _ _ E) as (x & _ & _ & H). auto. Qed.

Lemma node_fields_ok c n id st tag subtypes buffers H S : good_tag (id, st) -> node_fields c id st = Some (tag, subtypes, buffers) ->
  (length (buffer_ids c) <= n)%nat -> Z.of_nat n < 2 ^ 32 -> bytes H ->
  0 <= tag < 2 ^ 32 /\ bytes subtypes /\ zlen subtypes = (if counts_subtype tag then 1 else 0) /\ bytes (flat_map (WriteVarint V32) buffers ++ H) /\
  parse_callback n tag (subtypes ++ S) (flat_map (WriteVarint V32) buffers ++ H) = Some (entry_callback (buffer_ids c) (id, st), S, H).
Proof.
  intros G E Hn Hn2 HH. destruct id as [parent tg]. unfold node_fields in E.
  assert (IDX : forall id b, match buffer_pos c id with Some i => Some [Z.of_nat i] | None => None end = Some b ->
     exists i, b = [Z.of_nat i] /\ index_of (buffer_ids c) id = i /\ bytes (flat_map (WriteVarint V32) b ++ H) /\
       read_buffer_index n (flat_map (WriteVarint V32) b ++ H) = Some (i, H)).
  { intros id b. destruct (buffer_pos c id) as [i|] eqn:P; [|discriminate]. intros EE; injection EE as <-. exists i. split; [reflexivity|].
    destruct (index_of_pos c id i P) as [P1 P2]. split; [exact P1|]. cbn [flat_map]. rewrite app_nil_r. apply read_index_ok; [lia|assumption|assumption]. }
  assert (FIN : forall X, 0 <= tag < 2 ^ 32 /\ bytes subtypes /\ zlen subtypes = (if counts_subtype tag then 1 else 0) /\ bytes (flat_map (WriteVarint V32) buffers ++ H) /\
     parse_callback n tag (subtypes ++ S) (flat_map (WriteVarint V32) buffers ++ H) = Some (X, S, H) -> X = entry_callback (buffer_ids c) (parent, tg, st) ->
     0 <= tag < 2 ^ 32 /\ bytes subtypes /\ zlen subtypes = (if counts_subtype tag then 1 else 0) /\ bytes (flat_map (WriteVarint V32) buffers ++ H) /\
     parse_callback n tag (subtypes ++ S) (flat_map (WriteVarint V32) buffers ++ H) = Some (entry_callback (buffer_ids c) (parent, tg, st), S, H)) by (intros X HX <-; exact HX).
  destruct G as [(-> & -> & G)|(G1 & G2)].
  - cbn [Z.eqb negb] in E. destruct G as [->| ->].
    + assert (E' : match (match buffer_pos c (1, 0) with Some i => Some [Z.of_nat i] | None => None end) with None => None | Some i => Some (1, @nil Z, i) end = Some (tag, subtypes, buffers)) by exact E.
      clear E. rename E' into E. destruct (match buffer_pos c (1, 0) with Some i => Some [Z.of_nat i] | None => None end) as [b|] eqn:P; [|discriminate].
      destruct (IDX (1, 0) b P) as (i & _ & I2 & I3 & I4). injection E as <- <- <-. split; [lia|]. split; [constructor|]. split; [reflexivity|]. split; [exact I3|].
      unfold parse_callback. cbn [kNoOp kNonProto Z.eqb Pos.eqb app]. rewrite I4. unfold entry_callback. cbn [Z.eqb kNonProto Pos.eqb]. change (index_of (buffer_ids c) (kNonProto, 0)) with (index_of (buffer_ids c) (1, 0)).
      rewrite <- I2. reflexivity.
    + cbn [kNonProto kStartOfMessage Z.eqb Pos.eqb] in E. injection E as <- <- <-. split; [unfold kStartOfMessage; lia|]. split; [constructor|]. split; [reflexivity|]. split; [exact HH|]. reflexivity.
  - destruct (Z.eqb_spec tg 0) as [|N0]; [lia|]. cbn [negb] in E. cbv zeta in E.
    assert (W : 0 <= tg mod 8 <= 5) by (destruct G2 as [?|[?|?]]; lia).
    (* not a special tag *)
    assert (GEN : forall t, 8 <= t -> (t =? kNoOp) = false /\ (t =? kNonProto) = false /\ (t =? kStartOfMessage) = false /\ (t =? kStartOfSubmessage) = false).
    { intros t Ht. unfold kNoOp, kNonProto, kStartOfMessage, kStartOfSubmessage. repeat split; apply Z.eqb_neq; lia. }
    assert (EC : forall X, entry_callback (buffer_ids c) (parent, tg, st) = X <-> (if (GetTagWireType tg =? wLengthDelimited) && (st =? kLengthDelimitedStartOfSubmessage) then CSubmessageStart
        else match GetCallbackType tg st (match HasDataBuffer tg st with Some true => index_of (buffer_ids c) (parent, tg) | _ => O end) with Some c => c | None => CFailure end) = X).
    { intros X. unfold entry_callback. destruct (Z.eqb_spec tg 0); [lia|]. tauto. }
    assert (VT : ValidTag tg = true /\ counts_subtype tg = (tg mod 8 =? 0)).
    { unfold counts_subtype, ValidTag, HasSubtype, GetTagWireType, wVarint, wFixed32, wFixed64, wLengthDelimited, wStartGroup, wEndGroup.
      assert (tg mod 8 = 0 \/ tg mod 8 = 1 \/ tg mod 8 = 2 \/ tg mod 8 = 3 \/ tg mod 8 = 4 \/ tg mod 8 = 5) as C by lia.
      destruct C as [C|[C|[C|[C|[C|C]]]]]; rewrite C; cbn [Z.eqb Pos.eqb orb]; (destruct (Z.leb_spec 8 tg); [|lia]); auto. }
    destruct VT as [V1 V2]. destruct (GEN tg ltac:(lia)) as (Q1 & Q2 & Q3 & Q4).
    unfold GetTagWireType at 1 2 in E. unfold wLengthDelimited at 1 2 in E.
    destruct (Z.eqb_spec (tg mod 8) 2) as [M2|M2]; cbn [andb] in E.
    + assert (G3 : 0 <= st <= 2) by (destruct G2 as [?|[?|?]]; lia). assert (st = 0 \/ st = 1 \/ st = 2) as [->|[->| ->]] by lia.
      * (* a string *)
        cbn [kLengthDelimitedStartOfSubmessage kLengthDelimitedEndOfSubmessage Z.eqb Pos.eqb] in E.
        unfold HasSubtype, HasDataBuffer, GetTagWireType in E. rewrite M2 in E. 
        assert (E' : match (match buffer_pos c (parent, tg) with Some i => Some [Z.of_nat i] | None => None end) with None => None | Some i => Some (tg, @nil Z, i) end = Some (tag, subtypes, buffers)) by exact E.
        clear E. rename E' into E.
        destruct (match buffer_pos c (parent, tg) with Some i => Some [Z.of_nat i] | None => None end) as [b|] eqn:P; [|discriminate].
        destruct (IDX (parent, tg) b P) as (i & _ & I2 & I3 & I4). injection E as <- <- <-. split; [lia|]. split; [constructor|]. split; [rewrite V2, M2; reflexivity|]. split; [exact I3|].
        assert (HS : HasSubtype tg = Some false) by (unfold HasSubtype, GetTagWireType; rewrite M2; reflexivity).
        assert (HD : HasDataBuffer tg 0 = Some true) by (unfold HasDataBuffer, GetTagWireType; rewrite M2; reflexivity).
        assert (GC : forall b, GetCallbackType tg 0 b = Some (CString (WriteVarint V32 tg) b)) by (intros bb; unfold GetCallbackType, GetTagWireType; rewrite M2; reflexivity).
        assert (WT : GetTagWireType tg = 2) by exact M2.
        unfold parse_callback. rewrite Q1, Q2, Q3, Q4. cbv zeta. rewrite WT. cbn [wSubmessage Z.eqb Pos.eqb app]. rewrite V1. cbn [negb]. rewrite HS. unfold kTrivial. rewrite HD, I4, GC.
        do 3 f_equal. symmetry. apply EC. rewrite WT, HD, GC, I2. reflexivity.
      * cbn [kLengthDelimitedStartOfSubmessage Z.eqb Pos.eqb] in E. injection E as <- <- <-. split; [unfold kStartOfSubmessage; lia|]. split; [constructor|]. split; [reflexivity|]. split; [exact HH|].
        unfold parse_callback. cbn [kNoOp kNonProto kStartOfMessage kStartOfSubmessage Z.eqb Pos.eqb app flat_map]. do 3 f_equal. symmetry. apply EC.
        unfold GetTagWireType. rewrite M2. reflexivity.
      * cbn [kLengthDelimitedStartOfSubmessage kLengthDelimitedEndOfSubmessage Z.eqb Pos.eqb] in E. injection E as <- <- <-. unfold wSubmessage, wLengthDelimited. change (6 - 2) with 4.
        assert (M6 : (tg + 4) mod 8 = 6) by (Z.div_mod_to_equations; lia).
        split; [change (2 ^ 32) with 4294967296 in *; Z.div_mod_to_equations; lia|]. split; [constructor|].
        split; [unfold counts_subtype, ValidTag, HasSubtype, GetTagWireType; rewrite M6; reflexivity|]. split; [exact HH|].
        destruct (GEN (tg + 4) ltac:(lia)) as (P1 & P2 & P3 & P4). assert (W6 : GetTagWireType (tg + 4) = 6) by exact M6.
        unfold parse_callback. rewrite P1, P2, P3, P4. rewrite W6.
        change (6 =? wSubmessage) with true. cbv iota zeta. replace (tg + 4 - (wSubmessage - wLengthDelimited)) with tg by (unfold wSubmessage, wLengthDelimited; lia). cbn [app flat_map]. rewrite V1. cbn [negb].
        assert (HS : HasSubtype tg = Some false) by (unfold HasSubtype, GetTagWireType; rewrite M2; reflexivity).
        assert (HD : HasDataBuffer tg 2 = Some false) by (unfold HasDataBuffer, GetTagWireType; rewrite M2; reflexivity).
        assert (GC : forall b, GetCallbackType tg 2 b = Some (CSubmessageEnd (WriteVarint V32 tg))) by (intros bb; unfold GetCallbackType, GetTagWireType; rewrite M2; reflexivity).
        assert (WT : GetTagWireType tg = 2) by exact M2.
        rewrite HS. unfold kLengthDelimitedEndOfSubmessage. rewrite HD, GC.
        do 3 f_equal. symmetry. apply EC. rewrite WT, HD, GC. reflexivity.
    + destruct (Z.eqb_spec (tg mod 8) 0) as [M0|M0].
      * assert (G3 : 0 <= st <= 13) by (destruct G2 as [?|[?|?]]; lia). unfold HasSubtype, HasDataBuffer, GetTagWireType in E. rewrite M0 in E. cbn [wVarint Z.eqb] in E.
        assert (CB : exists cb, GetCallbackType tg st (if st <? kVarintInline0 then index_of (buffer_ids c) (parent, tg) else O) = Some cb /\ entry_callback (buffer_ids c) (parent, tg, st) = cb).
        { assert (EX : exists cb, GetCallbackType tg st (if st <? kVarintInline0 then index_of (buffer_ids c) (parent, tg) else O) = Some cb).
          { unfold GetCallbackType, GetTagWireType. rewrite M0. cbn [wVarint Z.eqb]. unfold kVarintInlineMax, kVarintInline0. destruct (Z.ltb_spec 137 st); [lia|].
            destruct (10 <=? st); eexists; reflexivity. }
          destruct EX as [cb Ecb]. exists cb. split; [exact Ecb|]. apply EC. replace (GetTagWireType tg =? wLengthDelimited) with false by (symmetry; apply Z.eqb_neq; exact M2). cbn [andb].
          assert (HD : HasDataBuffer tg st = Some (st <? kVarintInline0)) by (unfold HasDataBuffer, GetTagWireType; rewrite M0; reflexivity). rewrite HD.
          replace (match Some (st <? kVarintInline0) with Some true => index_of (buffer_ids c) (parent, tg) | _ => O end) with (if st <? kVarintInline0 then index_of (buffer_ids c) (parent, tg) else O) by (destruct (st <? kVarintInline0); reflexivity).
          rewrite Ecb. reflexivity. }
        destruct CB as (cb & CB1 & CB2). apply (FIN cb); [|symmetry; exact CB2]. clear FIN.
        assert (SB : bytes [st]) by (constructor; [red; lia|constructor]).
        assert (PC : forall h, parse_callback n tg ([st] ++ S) h = match (if st <? kVarintInline0 then read_buffer_index n h else Some (O, h)) with
           | None => None | Some (buffer, header) => match GetCallbackType tg st buffer with None => None | Some callback => Some (callback, S, header) end end).
        { intros h. unfold parse_callback. rewrite Q1, Q2, Q3, Q4. cbv zeta. replace (GetTagWireType tg) with 0 by (symmetry; exact M0). cbn [wSubmessage Z.eqb]. rewrite V1. cbn [negb].
          assert (HS : HasSubtype tg = Some true) by (unfold HasSubtype, GetTagWireType; rewrite M0; reflexivity).
          assert (HD : HasDataBuffer tg st = Some (st <? kVarintInline0)) by (unfold HasDataBuffer, GetTagWireType; rewrite M0; reflexivity).
          rewrite HS. cbn [app]. rewrite HD.
          destruct (st <? kVarintInline0); reflexivity. }
        destruct (st <? kVarintInline0) eqn:LT.
        -- destruct (match buffer_pos c (parent, tg) with Some i => Some [Z.of_nat i] | None => None end) as [b|] eqn:P; [|discriminate].
           destruct (IDX (parent, tg) b P) as (i & _ & I2 & I3 & I4). injection E as <- <- <-. split; [lia|]. split; [exact SB|]. split; [rewrite V2; reflexivity|]. split; [exact I3|].
           rewrite PC, I4, <- I2, CB1. reflexivity.
        -- injection E as <- <- <-. split; [lia|]. split; [exact SB|]. split; [rewrite V2; reflexivity|]. split; [exact HH|]. rewrite PC, CB1. reflexivity.
      * assert (G3 : st = 0) by (destruct G2 as [?|[?|?]]; lia). subst st.
        assert (C : tg mod 8 = 1 \/ tg mod 8 = 5 \/ tg mod 8 = 3 \/ tg mod 8 = 4) by lia.
        assert (PC : forall h, parse_callback n tg ([] ++ S) h = match (if (tg mod 8 =? 1) || (tg mod 8 =? 5) then read_buffer_index n h else Some (O, h)) with
           | None => None | Some (buffer, header) => match GetCallbackType tg 0 buffer with None => None | Some callback => Some (callback, S, header) end end).
        { intros h. unfold parse_callback. rewrite Q1, Q2, Q3, Q4. cbv zeta. replace (GetTagWireType tg =? wSubmessage) with false by (symmetry; apply Z.eqb_neq; unfold wSubmessage, GetTagWireType; lia). rewrite V1. cbn [negb app].
          assert (HS : HasSubtype tg = Some false) by (unfold HasSubtype, GetTagWireType; destruct C as [C|[C|[C|C]]]; rewrite C; reflexivity).
          assert (HD : HasDataBuffer tg 0 = Some ((tg mod 8 =? 1) || (tg mod 8 =? 5))) by (unfold HasDataBuffer, GetTagWireType; destruct C as [C|[C|[C|C]]]; rewrite C; reflexivity).
          rewrite HS. unfold kTrivial. rewrite HD. destruct ((tg mod 8 =? 1) || (tg mod 8 =? 5)); reflexivity. }
        assert (CB : exists cb, GetCallbackType tg 0 (if (tg mod 8 =? 1) || (tg mod 8 =? 5) then index_of (buffer_ids c) (parent, tg) else O) = Some cb /\ entry_callback (buffer_ids c) (parent, tg, 0) = cb).
        { assert (EX : exists cb, GetCallbackType tg 0 (if (tg mod 8 =? 1) || (tg mod 8 =? 5) then index_of (buffer_ids c) (parent, tg) else O) = Some cb).
          { unfold GetCallbackType, GetTagWireType. destruct C as [C|[C|[C|C]]]; rewrite C; eexists; reflexivity. }
          destruct EX as [cb Ecb]. exists cb. split; [exact Ecb|]. apply EC. replace (GetTagWireType tg =? wLengthDelimited) with false by (symmetry; apply Z.eqb_neq; exact M2). cbn [andb].
          replace (match HasDataBuffer tg 0 with Some true => index_of (buffer_ids c) (parent, tg) | _ => O end) with (if (tg mod 8 =? 1) || (tg mod 8 =? 5) then index_of (buffer_ids c) (parent, tg) else O)
            by (unfold HasDataBuffer, GetTagWireType; destruct C as [C|[C|[C|C]]]; rewrite C; reflexivity).
          rewrite Ecb. reflexivity. }
        destruct CB as (cb & CB1 & CB2). apply (FIN cb); [|symmetry; exact CB2]. clear FIN.
        assert (E' : (if (tg mod 8 =? 1) || (tg mod 8 =? 5) then match (match buffer_pos c (parent, tg) with Some i => Some [Z.of_nat i] | None => None end) with None => None | Some i => Some (tg, @nil Z, i) end else Some (tg, @nil Z, @nil Z)) = Some (tag, subtypes, buffers)).
        { rewrite <- E. unfold HasSubtype, HasDataBuffer, GetTagWireType. destruct C as [C|[C|[C|C]]]; rewrite C; reflexivity. }
        assert (Z1 : zlen (@nil Z) = (if counts_subtype tg then 1 else 0)) by (rewrite V2; destruct (Z.eqb_spec (tg mod 8) 0); [lia|reflexivity]).
        destruct ((tg mod 8 =? 1) || (tg mod 8 =? 5)) eqn:LT.
        -- destruct (match buffer_pos c (parent, tg) with Some i => Some [Z.of_nat i] | None => None end) as [b|] eqn:P; [|discriminate].
           destruct (IDX (parent, tg) b P) as (i & _ & I2 & I3 & I4). injection E' as <- <- <-. split; [lia|]. split; [constructor|]. split; [exact Z1|]. split; [exact I3|].
           rewrite PC, I4, <- I2, CB1. reflexivity.
        -- injection E' as <- <- <-. split; [lia|]. split; [constructor|]. split; [exact Z1|]. split; [exact HH|]. rewrite PC, CB1. reflexivity.
Qed.

Section States.
Variable c : columns.
Variable tags : list tag_info.
Variable n : nat.     (* the number of buffers *)
Variable size : nat.  (* the number of states *)
Hypothesis W : Forall good_tag (c_tags c).
Hypothesis n_ids : (length (buffer_ids c) <= n)%nat.
Hypothesis n_small : Z.of_nat n < 2 ^ 32.
Hypothesis size_small : Z.of_nat size < 2 ^ 31.
Definition based (s : state_info) : Prop :=
  match s_tag s with
  | None => forall b, s_base s = Some b -> (b < size)%nat
  | Some t => forall ti, nth_error tags t = Some ti -> (forall b, t_base ti = Some b -> (b < size)%nat) /\ (length (t_dests ti) = 1%nat -> t_base ti <> None)
  end.
Definition node_for (s : state_info) (nd : node) : Prop :=
  match s_tag s with
  | None => n_callback nd = CNoOp /\ n_implicit nd = false /\ s_base s = Some (n_next nd)
  | Some t => exists ti e, nth_error tags t = Some ti /\ nth_error (c_tags c) t = Some e /\ n_callback nd = entry_callback (buffer_ids c) e /\
                n_implicit nd = Nat.eqb (length (t_dests ti)) 1 /\ (forall b, t_base ti = Some b -> n_next nd = b)
  end.
Lemma counts_zero : counts_subtype kNoOp = false.
Proof. reflexivity. Qed.
Lemma parse_nodes_ok l : forall fields H, states_to_write c tags size l = Some fields -> Forall based l -> (length l <= size)%nat -> bytes H ->
  Forall (fun f => 0 <= w_tag f < 2 ^ 32) fields /\ Forall (fun f => 0 <= w_base f < 2 ^ 32) fields /\ bytes (flat_map w_subtype fields) /\ length fields = length l /\
  zlen (flat_map w_subtype fields) = zlen (filter counts_subtype (map w_tag fields)) /\
  bytes (flat_map (fun f => flat_map (WriteVarint V32) (w_buffer f)) fields ++ H) /\
  exists nds, parse_nodes n (Z.of_nat size) (map w_tag fields) (map w_base fields) (flat_map w_subtype fields)
                (flat_map (fun f => flat_map (WriteVarint V32) (w_buffer f)) fields ++ H) = Some (nds, H) /\
    Forall2 node_for l nds.
Proof.
  induction l as [|s l IH]; intros fields H E F L HH; cbn [states_to_write] in E.
  - injection E as <-. repeat (split; [first [constructor|exact HH|reflexivity]|]). exists []. split; [reflexivity|constructor].
  - destruct (state_to_write c tags size s) as [f|] eqn:Es; [|discriminate]. destruct (states_to_write c tags size l) as [fs|] eqn:El; [|discriminate].
    injection E as <-. inversion F as [|? ? F1 F2]; subst. cbn [length] in L.
    destruct (IH fs H eq_refl F2 ltac:(lia) HH) as (I1 & I2 & I3 & I4 & I5 & I6 & nds & I7 & I8).
    set (H' := flat_map (fun f => flat_map (WriteVarint V32) (w_buffer f)) fs ++ H) in *.
    assert (ONE : 0 <= w_tag f < 2 ^ 32 /\ 0 <= w_base f < 2 ^ 32 /\ bytes (w_subtype f) /\ zlen (w_subtype f) = (if counts_subtype (w_tag f) then 1 else 0) /\
      bytes (flat_map (WriteVarint V32) (w_buffer f) ++ H') /\
      exists cb, parse_callback n (w_tag f) (w_subtype f ++ flat_map w_subtype fs) (flat_map (WriteVarint V32) (w_buffer f) ++ H') = Some (cb, flat_map w_subtype fs, H') /\
        let implicit := Z.of_nat size <=? w_base f in let next := if implicit then w_base f - Z.of_nat size else w_base f in
        next < Z.of_nat size /\ node_for s {| n_callback := cb; n_implicit := implicit; n_next := Z.to_nat next |}).
    { unfold state_to_write in Es. unfold based in F1. unfold node_for. destruct (s_tag s) as [t|] eqn:Et.
      - destruct (nth_error (c_tags c) t) as [[id st]|] eqn:Ec; [|discriminate]. destruct (nth_error tags t) as [ti|] eqn:Eti; [|discriminate].
        destruct (node_fields c id st) as [[[tg subtypes] buffers]|] eqn:En; [|discriminate]. injection Es as <-. cbn [w_tag w_base w_subtype w_buffer].
        assert (G : good_tag (id, st)) by (rewrite Forall_forall in W; apply W; eapply nth_error_In, Ec).
        destruct (node_fields_ok c n id st tg subtypes buffers H' (flat_map w_subtype fs) G En n_ids n_small I6) as (N1 & N2 & N3 & N4 & N5).
        destruct (F1 ti eq_refl) as [B1 B2].
        assert (BR : match t_base ti with Some b => (b < size)%nat | None => length (t_dests ti) <> 1%nat end).
        { destruct (t_base ti) as [b|]; [apply B1; reflexivity|]. intros X. apply (B2 X). reflexivity. }
        split; [exact N1|]. split; [|split; [exact N2|split; [exact N3|split; [exact N4|]]]].
        + change (2 ^ 31) with 2147483648 in *; change (2 ^ 32) with 4294967296. destruct (t_base ti) as [b|]; [|lia]. destruct (Nat.eqb (length (t_dests ti)) 1); lia.
        + eexists. split; [exact N5|]. cbn [n_callback n_implicit n_next].
          destruct (t_base ti) as [b|] eqn:Eb.
          * destruct (Nat.eqb_spec (length (t_dests ti)) 1) as [Q|Q].
            -- destruct (Z.leb_spec (Z.of_nat size) (Z.of_nat b + Z.of_nat size)); [|lia]. split; [lia|]. exists ti, (id, st).
               repeat (split; [first [reflexivity|assumption]|]). split; [destruct (Nat.eqb_spec (length (t_dests ti)) 1); [reflexivity|contradiction]|].
               intros b' Eb'. rewrite Eb in Eb'. injection Eb' as <-. lia.
            -- rewrite Z.add_0_r. destruct (Z.leb_spec (Z.of_nat size) (Z.of_nat b)); [lia|]. split; [lia|]. exists ti, (id, st).
               repeat (split; [first [reflexivity|assumption]|]). split; [destruct (Nat.eqb_spec (length (t_dests ti)) 1); [contradiction|reflexivity]|].
               intros b' Eb'. rewrite Eb in Eb'. injection Eb' as <-. lia.
          * destruct (Z.leb_spec (Z.of_nat size) 0); [lia|]. split; [lia|]. exists ti, (id, st). repeat (split; [first [reflexivity|assumption]|]).
            split; [destruct (Nat.eqb_spec (length (t_dests ti)) 1); [contradiction|reflexivity]|]. intros b' Eb'. congruence.
      - destruct (s_base s) as [b|] eqn:Eb; [|discriminate]. injection Es as <-. cbn [w_tag w_base w_subtype w_buffer flat_map app]. specialize (F1 b eq_refl).
        split; [unfold kNoOp; lia|]. split; [change (2 ^ 31) with 2147483648 in *; change (2 ^ 32) with 4294967296; lia|]. split; [constructor|]. split; [reflexivity|]. split; [exact I6|].
        exists CNoOp. split; [reflexivity|]. cbn [n_callback n_implicit n_next]. destruct (Z.leb_spec (Z.of_nat size) (Z.of_nat b)); [lia|]. split; [lia|].
        split; [reflexivity|]. split; [reflexivity|]. rewrite Nat2Z.id. reflexivity. }
    destruct ONE as (O1 & O2 & O3 & O4 & O5 & cb & O6 & O7). cbv zeta in O7. destruct O7 as [O7 O8].
    cbn [flat_map map filter length]. split; [constructor; assumption|]. split; [constructor; assumption|]. split; [apply bytes_app; auto|]. split; [lia|].
    split; [rewrite zlen_app, O4, I5; destruct (counts_subtype (w_tag f)); [rewrite zlen_cons; lia|lia]|]. rewrite <- app_assoc. fold H'. split; [exact O5|].
    eexists. split; [cbn [parse_nodes]; rewrite O6; cbv zeta; destruct (Z.leb_spec (Z.of_nat size) (if Z.of_nat size <=? w_base f then w_base f - Z.of_nat size else w_base f)); [lia|]; rewrite I7; reflexivity|].
    constructor; assumption.
Qed.
End States.
