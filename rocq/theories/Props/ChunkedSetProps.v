(** C40: ChunkedSortedStringSet.  Results [Some _] also say that no assertion fails and nothing is read out of bounds. *)
From Verif Require Import Base.Bytes Spec.VarintSpec Spec.StringSetSpec Model.Varint Model.StringSet Spec.StringSetCalls Proof.CodecLemmas
  Proof.StringSetProof Proof.StringSetQuery Proof.StringSetBuild Proof.StringSetDecode Model.ChunkedStringSet Spec.ChunkedStringSetSpec
  Proof.ChunkedSetProof Proof.ChunkedSetContains Proof.ChunkedSetBuild Proof.ChunkedSetDecode.

(** Any sequence of calls of the builder, for any chunk size: every call returns what it should, and the set built represents
    exactly the elements which were greater than all before them, in order, in chunks of the requested size. *)
Theorem C40_builder chunk_size calls : 1 <= chunk_size -> Forall bytes (map snd calls) -> Forall short (map snd calls) ->
  exists b ess, c_try_inserts (CBuilder_new chunk_size) calls = Some (b, insert_results None (map snd calls)) /\
    chunked 0 (fst (CBuild b)) ess /\ concat ess = kept None (map snd calls) /\ chunk_sizes chunk_size ess /\
    increasing (kept None (map snd calls)) /\ CBuilder_size b = zlen (kept None (map snd calls)) /\ snd (CBuild b) = CBuilder_new chunk_size.
Proof.
  intros Hn B Sh. destruct (c_try_inserts_ok chunk_size calls Hn _ _ _ (cbuilder_new_ok _ Hn) B Sh) as (b & ess & es & E & Ok & C).
  cbn [concat app last_of rev hd_error] in E, C. destruct (CBuild_ok _ _ _ _ Ok) as (ess' & Ch & Ec & Sz & _ & Nw). exists b, ess'.
  rewrite C in Ec. pose proof Ok as (_ & Ch0 & _ & (_ & _ & Bz & _) & _ & _ & Inc & _). rewrite C in Inc.
  split; [exact E|]. split; [exact Ch|]. split; [exact Ec|]. split; [exact Sz|]. split; [exact Inc|]. split; [|exact Nw].
  unfold CBuilder_size. rewrite (back_end_ok _ _ Ch0), Bz, <- zlen_app, C. reflexivity.
Qed.
(** The representation is a function of the elements and the chunk size. *)
Theorem C40_builder_canonical chunk_size calls1 calls2 b1 b2 rs1 rs2 : 1 <= chunk_size ->
  Forall bytes (map snd calls1) -> Forall short (map snd calls1) -> Forall bytes (map snd calls2) -> Forall short (map snd calls2) ->
  c_try_inserts (CBuilder_new chunk_size) calls1 = Some (b1, rs1) -> c_try_inserts (CBuilder_new chunk_size) calls2 = Some (b2, rs2) ->
  kept None (map snd calls1) = kept None (map snd calls2) -> fst (CBuild b1) = fst (CBuild b2).
Proof.
  intros Hn B1 S1 B2 S2 T1 T2 K.
  destruct (c_try_inserts_ok chunk_size calls1 Hn _ _ _ (cbuilder_new_ok _ Hn) B1 S1) as (b1' & ess1 & es1 & E1 & Ok1 & C1). rewrite T1 in E1. injection E1 as <- _.
  destruct (c_try_inserts_ok chunk_size calls2 Hn _ _ _ (cbuilder_new_ok _ Hn) B2 S2) as (b2' & ess2 & es2 & E2 & Ok2 & C2). rewrite T2 in E2. injection E2 as <- _.
  cbn [concat app last_of rev hd_error] in C1, C2.
  destruct (CBuild_ok _ _ _ _ Ok1) as (f1 & Ch1 & Ec1 & Sz1 & Ca1 & _). destruct (CBuild_ok _ _ _ _ Ok2) as (f2 & Ch2 & Ec2 & Sz2 & Ca2 & _).
  assert (N : forall cs ess, chunked 0 cs ess -> Forall (fun es => es <> []) ess).
  { intros cs ess H. apply chunked_forall in H. clear - H. induction H as [|c es cs ess (_ & _ & _ & Ne) F IH]; constructor; auto. }
  assert (f1 = f2) by (apply (chunk_sizes_det chunk_size Hn); eauto; congruence). subst f2. eapply chunks_det; eassumption.
Qed.
(** FromSorted(): for sorted elements, a set with the same members; unsorted elements are detected. *)
Theorem C40_from_sorted moved chunk_size src : 1 <= chunk_size -> Forall bytes src -> Forall short src ->
  (CFromSorted moved chunk_size src = None <-> ~ sorted src) /\
  (sorted src -> exists chunks es, CFromSorted moved chunk_size src = Some chunks /\ represents chunks es /\ increasing es /\
    (forall x, In x es <-> In x src) /\ (increasing src -> es = src)).
Proof.
  intros Hn B Sh. assert (Em : map snd (map (pair moved) src) = src) by (rewrite map_map; cbn [snd]; apply map_id).
  destruct (C40_builder chunk_size (map (pair moved) src) Hn) as (b & ess & E & Ch & Ec & _ & Inc & _); rewrite ?Em; auto. rewrite Em in *.
  assert (P : sorted src -> exists chunks es, CFromSorted moved chunk_size src = Some chunks /\ represents chunks es /\ increasing es /\
    (forall x, In x es <-> In x src) /\ (increasing src -> es = src)).
  { intros So. exists (fst (CBuild b)), (kept None src). unfold CFromSorted.
    rewrite (c_try_insert_all moved src _ b _ E) by (apply (results_sorted src None); exact So).
    split; [reflexivity|]. split; [exists ess; auto|]. split; [exact Inc|]. split; [|apply kept_increasing].
    intros x. rewrite (kept_in src None So x). split; [auto|]. intros [Hx|[_ Hx]]; [exact Hx | discriminate]. }
  split; [|exact P]. split.
  - intros N So. destruct (P So) as (chunks & es & Q & _). congruence.
  - intros N. unfold CFromSorted. destruct (c_insert_all moved (CBuilder_new chunk_size) src) as [b'|] eqn:Q; [|reflexivity]. exfalso. apply N.
    apply c_insert_all_try in Q. destruct Q as (rs & Q & F). rewrite Q in E. injection E as _ ->. apply (results_sorted src None). exact F.
Qed.
Theorem C40_from_unsorted moved chunk_size src : 1 <= chunk_size -> Forall bytes src -> Forall short src ->
  exists chunks es, CFromUnsorted moved chunk_size src = Some chunks /\ represents chunks es /\ increasing es /\ (forall x, In x es <-> In x src).
Proof.
  intros Hn B Sh. pose proof (std_sort_perm src) as Pe.
  destruct (C40_from_sorted moved chunk_size (std_sort src) Hn (Permutation_Forall Pe B) (Permutation_Forall Pe Sh)) as [_ P].
  destruct (P (std_sort_sorted src)) as (chunks & es & E & R & Inc & M & _). exists chunks, es. split; [exact E|]. split; [exact R|]. split; [exact Inc|].
  intros x. rewrite M. split; [apply (Permutation_in x (Permutation_sym Pe)) | apply (Permutation_in x Pe)].
Qed.
(** Queries agree with the sequence of elements, for any division into chunks and any representation of chunks. *)
Theorem C40_iteration chunks es : represents chunks es ->
  CSet_elements chunks = Some es /\ CSet_size chunks = zlen es /\ (CSet_empty chunks = true <-> es = []) /\
  (es <> [] -> CSet_first chunks = hd_error es /\ CSet_last chunks = last_of es) /\
  CSet_HashValue chunks = Some (map HString es ++ [HSize (zlen es)]) /\
  exists ss, CSet_split_elements chunks = Some ss /\ map Split_string ss = es /\ shares [] (map (fun s => (prefix s, suffix s)) ss).
Proof.
  intros (ess & Ch & <-). pose proof (chunked_forall _ _ _ Ch) as F. pose proof (CSet_elements_ok _ _ F) as El.
  assert (Sz : CSet_size chunks = zlen (concat ess)) by (apply back_end_ok; exact Ch).
  split; [exact El|]. split; [exact Sz|]. split; [|split; [|split]].
  - destruct F as [|c x cs xs (_ & _ & _ & Ne) F]; [cbn; tauto|]. cbn [CSet_empty concat]. split; [discriminate|]. destruct x; [contradiction | discriminate].
  - intros Ne. split.
    + destruct F as [|c x cs xs (Bc & Hc & Sc & Nc) F]; [contradiction|]. cbn [CSet_first concat]. destruct x as [|e x]; [contradiction|].
      cbn [app hd_error]. apply Set_first_ok with x; assumption.
    + assert (Ness : ess <> []) by (intros ->; contradiction). destruct ess as [|x ess _] using rev_ind; [contradiction|].
      apply Forall2_app_inv_r in F. destruct F as (c1 & c2 & F1 & F2 & ->). inversion F2 as [|c d u v (Bc & Hc & Sc & Nc) Fn]; subst. inversion Fn; subst.
      unfold CSet_last. rewrite rev_app_distr. cbn [rev app]. rewrite concat_snoc, last_of_app by exact Nc. destruct x as [|e x]; [contradiction|]. apply Set_last_ok; assumption.
  - unfold CSet_HashValue. rewrite El, Sz. reflexivity.
  - apply CSet_split_elements_ok. exact F.
Qed.
(** Conversions from and to a linear set *)
Theorem C40_linear enc es : bytes enc -> set_encoding enc es -> Forall short es ->
  exists chunks, CSet_from_linear enc = Some chunks /\ represents chunks es /\ has_single_chunk chunks = true /\ TheChunk chunks = Some enc.
Proof.
  intros B H Sh. unfold CSet_from_linear. destruct (Set_empty enc) eqn:Em.
  - apply Set_empty_nil in Em. pose proof (proj1 (encoding_nil _ _ H) Em) as ->. subst enc. exists []. split; [reflexivity|].
    split; [exists []; split; [exact Logic.I | reflexivity]|]. split; reflexivity.
  - rewrite (Set_size_ok enc es) by assumption. eexists. split; [reflexivity|]. split; [|split; reflexivity]. exists [es]. cbn [chunked concat c_end c_set]. rewrite app_nil_r.
    split; [|reflexivity]. split; [|split; [lia | exact Logic.I]]. split; [exact B|]. split; [exact H|]. split; [exact Sh|].
    intros Q. apply (encoding_nil _ _ H), Set_empty_nil in Q. congruence.
Qed.
(** contains(): membership, and the index of the element or the index where it would be inserted. *)
Theorem C40_contains chunks es q : represents chunks es -> increasing es -> bytes q ->
  exists r, CSet_contains_index chunks q = Some (r, index_of q es) /\ CSet_contains chunks q = Some r /\ (r = true <-> In q es).
Proof. intros (ess & Ch & <-) Inc Bq. apply CSet_contains_ok; assumption. Qed.
(** It is defined and terminates even if elements are not sorted (a set decoded without validation). *)
Theorem C40_contains_total chunks es q : represents chunks es -> bytes q ->
  exists r i, CSet_contains_index chunks q = Some (r, i) /\ CSet_contains chunks q = Some r.
Proof. intros (ess & Ch & <-) Bq. apply (CSet_contains_total chunks ess); assumption. Qed.
(** Three-way comparison is the lexicographic comparison of elements, however they are divided into chunks and represented. *)
Theorem C40_compare ca cb a b : represents ca a -> represents cb b ->
  exists c, CSet_Compare ca cb = Some c /\ c = lex_cmp_list a b /\ (c = Eq <-> a = b).
Proof.
  intros (ea & Ha & <-) (eb & Hb & <-). eexists. split; [apply CSet_Compare_ok; eapply chunked_forall; eassumption|]. split; [reflexivity | apply lex_cmp_list_eq].
Qed.
(** Equality never holds for different sets, whatever their representations. *)
Theorem C40_equal_sound_partial ca cb a b : represents ca a -> represents cb b -> exists r, CSet_Equal ca cb = Some r /\ (r = true -> a = b).
Proof. intros (ea & Ha & <-) (eb & Hb & <-). apply CSet_Equal_sound; eapply chunked_forall; eassumption. Qed.
(** Equality is right for sets made by builders with the same chunk size. *)
Theorem C40_built_sets_equal chunk_size calls1 calls2 b1 b2 rs1 rs2 : 1 <= chunk_size ->
  Forall bytes (map snd calls1) -> Forall short (map snd calls1) -> Forall bytes (map snd calls2) -> Forall short (map snd calls2) ->
  c_try_inserts (CBuilder_new chunk_size) calls1 = Some (b1, rs1) -> c_try_inserts (CBuilder_new chunk_size) calls2 = Some (b2, rs2) ->
  exists r, CSet_Equal (fst (CBuild b1)) (fst (CBuild b2)) = Some r /\ (r = true <-> kept None (map snd calls1) = kept None (map snd calls2)).
Proof.
  intros Hn B1 S1 B2 S2 T1 T2.
  destruct (C40_builder chunk_size calls1 Hn B1 S1) as (b1' & ess1 & E1 & Ch1 & Ec1 & _). rewrite T1 in E1. injection E1 as <- _.
  destruct (C40_builder chunk_size calls2 Hn B2 S2) as (b2' & ess2 & E2 & Ch2 & Ec2 & _). rewrite T2 in E2. injection E2 as <- _.
  destruct (C40_equal_sound_partial (fst (CBuild b1)) (fst (CBuild b2)) _ _ (ex_intro _ ess1 (conj Ch1 Ec1)) (ex_intro _ ess2 (conj Ch2 Ec2))) as (r & E & So).
  exists r. split; [exact E|]. split; [exact So|]. intros K.
  rewrite <- (C40_builder_canonical chunk_size calls1 calls2 b1 b2 rs1 rs2 Hn B1 S1 B2 S2 T1 T2 K) in E.
  rewrite (CSet_Equal_refl _ ess1) in E by (eapply chunked_forall; exact Ch1). congruence.
Qed.
(** It is wrong for sets made with different chunk sizes, and not symmetric: {"aa1", "aa2"} in chunks of 1 and of 2. *)
Theorem C40_equal_refuted : exists small large,
  CFromSorted false 1 [[97; 97; 49]; [97; 97; 50]] = Some small /\ CFromSorted false 2 [[97; 97; 49]; [97; 97; 50]] = Some large /\
  CSet_elements small = CSet_elements large /\ CSet_Compare small large = Some Eq /\
  CSet_Equal small large = Some false /\ CSet_Equal large small = Some true.
Proof. eexists _, _. split; [reflexivity|]. split; [reflexivity|]. repeat split; reflexivity. Qed.
(** Decode() accepts exactly the well-formed representations, within the limits, with no empty chunks and with elements which (if
    validation is requested) are sorted and unique, also across chunks. *)
Theorem C40_decode validate max_num_chunks max_encoded_chunk_size src : bytes src -> zlen src < 2 ^ 62 ->
  exists r, CSet_DecodeImpl validate max_num_chunks max_encoded_chunk_size src = Some r /\
    forall chunks rest, r = Accept (chunks, rest) <->
      exists num body es, src = num ++ body /\ varint_of (zlen chunks) num /\ zlen chunks <= max_num_chunks /\
        serialized max_encoded_chunk_size body chunks rest /\ represents chunks es /\ (validate = true -> increasing es).
Proof.
  intros B Sh. destruct (CSet_DecodeImpl_ok validate max_num_chunks max_encoded_chunk_size src B Sh) as (r & E & A). exists r. split; [exact E|].
  intros chunks rest. rewrite A. split.
  - intros (t & body & ess & H1 & H2 & H3 & H4 & H5 & H6). exists t, body, (concat ess). repeat split; auto; try apply H2. exists ess. auto.
  - intros (t & body & es & H1 & H2 & H3 & H4 & (ess & H5 & <-) & H6). exists t, body, ess. auto 10.
Qed.
Theorem C40_decode_whole validate max_num_chunks max_encoded_chunk_size src : bytes src -> zlen src < 2 ^ 62 ->
  exists r, CSet_Decode validate max_num_chunks max_encoded_chunk_size src = Some r /\
    forall chunks, r = Accept chunks <->
      exists num body es, src = num ++ body /\ varint_of (zlen chunks) num /\ zlen chunks <= max_num_chunks /\
        serialized max_encoded_chunk_size body chunks [] /\ represents chunks es /\ (validate = true -> increasing es).
Proof.
  intros B Sh. destruct (C40_decode validate max_num_chunks max_encoded_chunk_size src B Sh) as (r & E & A). unfold CSet_Decode. rewrite E.
  destruct r as [[chunks rest] |].
  - eexists. split; [reflexivity|]. intro chunks'. rewrite <- A. destruct (zlen rest =? 0) eqn:R.
    + assert (rest = []) as -> by (destruct rest; [reflexivity | rewrite zlen_cons in R; pose proof (zlen_nonneg rest); lia]).
      split; intro H; injection H as ->; reflexivity.
    + split; [discriminate|]. intro H. injection H as _ ->. discriminate R.
  - eexists. split; [reflexivity|]. intro chunks'. rewrite <- A. split; discriminate.
Qed.
Theorem C40_round_trip validate max_num_chunks max_encoded_chunk_size chunks es rest : represents chunks es -> increasing es ->
  zlen chunks <= max_num_chunks -> Forall (fun c => zlen (c_set c) <= max_encoded_chunk_size) chunks ->
  bytes rest -> zlen (CSet_EncodeImpl chunks ++ rest) < 2 ^ 62 ->
  CSet_DecodeImpl validate max_num_chunks max_encoded_chunk_size (CSet_EncodeImpl chunks ++ rest) = Some (Accept (chunks, rest)) /\
  CSet_Decode validate max_num_chunks max_encoded_chunk_size (CSet_EncodeImpl chunks) = Some (Accept chunks) /\
  CSet_EncodedSize chunks = zlen (CSet_EncodeImpl chunks).
Proof.
  intros (ess & Ch & <-) Inc Mn Mx Br Sh. rewrite zlen_app in Sh. pose proof (zlen_nonneg rest) as Nr.
  destruct (encoded_chunks_short max_encoded_chunk_size chunks) as [Lc Ln]; [exact Mx | unfold CSet_EncodeImpl in Sh; rewrite zlen_app in Sh; pose proof (zlen_nonneg (WriteVarint V64 (zlen chunks))); lia |].
  pose proof (zlen_nonneg chunks) as Nn. destruct (write_varint_of (zlen chunks) ltac:(lia)) as [V Bv].
  destruct (encode_serialized max_encoded_chunk_size chunks 0 ess Ch Lc) as (Be & Sz & Se). cbv zeta in *.
  assert (Len : zlen (WriteVarint V64 (zlen chunks)) = LengthVarint (zlen chunks)).
  { destruct (varint64_round_trip false (zlen chunks) [] ltac:(lia) bytes_nil) as (_ & L & _). exact L. }
  assert (W : forall rest, bytes rest -> zlen (CSet_EncodeImpl chunks) + zlen rest < 2 ^ 62 ->
     CSet_DecodeImpl validate max_num_chunks max_encoded_chunk_size (CSet_EncodeImpl chunks ++ rest) = Some (Accept (chunks, rest))).
  { clear rest Br Sh Nr. intros rest Br Sh. destruct (C40_decode validate max_num_chunks max_encoded_chunk_size (CSet_EncodeImpl chunks ++ rest)) as (r & E & A).
    - unfold CSet_EncodeImpl. rewrite !bytes_app. auto.
    - rewrite zlen_app. exact Sh.
    - rewrite E. f_equal. apply A. unfold CSet_EncodeImpl. rewrite <- app_assoc. exists (WriteVarint V64 (zlen chunks)), (concat (map (fun c => EncodeImpl (c_set c)) chunks) ++ rest), (concat ess).
      split; [reflexivity|]. split; [exact V|]. split; [exact Mn|]. split; [apply Se|]. split; [exists ess; auto | auto]. }
  split; [apply W; assumption|]. split.
  - unfold CSet_Decode. rewrite <- (app_nil_r (CSet_EncodeImpl chunks)), W; [reflexivity | constructor |]. change (zlen (@nil Z)) with 0. lia.
  - unfold CSet_EncodedSize, CSet_EncodeImpl. rewrite zlen_app, Sz, Len. reflexivity.
Qed.
(** After an accepted Decode() every query is defined and agrees with one sequence of elements. *)
Theorem C40_decoded_set_usable validate max_num_chunks max_encoded_chunk_size src chunks rest q : bytes src -> zlen src < 2 ^ 62 -> bytes q ->
  CSet_DecodeImpl validate max_num_chunks max_encoded_chunk_size src = Some (Accept (chunks, rest)) ->
  exists es, CSet_elements chunks = Some es /\ CSet_size chunks = zlen es /\ (exists r i, CSet_contains_index chunks q = Some (r, i)) /\
    (validate = true -> increasing es /\ exists r, CSet_contains_index chunks q = Some (r, index_of q es) /\ (r = true <-> In q es)).
Proof.
  intros B Sh Bq H. destruct (C40_decode validate max_num_chunks max_encoded_chunk_size src B Sh) as (r & E & A). rewrite H in E. injection E as <-.
  destruct (proj1 (A chunks rest) eq_refl) as (t & body & es & _ & _ & _ & _ & R & Inc). exists es.
  destruct (C40_iteration chunks es R) as (I1 & I2 & _). split; [exact I1|]. split; [exact I2|].
  split; [destruct (C40_contains_total chunks es q R Bq) as (r & i & E & _); eauto|].
  intros Va. specialize (Inc Va). split; [exact Inc|]. destruct (C40_contains chunks es q R Inc Bq) as (r & E & _ & M). eauto.
Qed.

(** *** Non-trivial instances of the hypotheses *)
(** "", "b", "b" (duplicate), "a" (out of order), "banana", "band", "c" in chunks of 2 *)
Definition chunked_calls : list (bool * list Z) :=
  [(true, []); (false, [98]); (true, [98]); (true, [97]); (true, [98; 97; 110; 97; 110; 97]); (false, [98; 97; 110; 100]); (true, [99])].
Definition chunked_sample : list chunk :=
  [{| c_set := [0; 2; 98]; c_end := 2 |}; {| c_set := [12; 98; 97; 110; 97; 110; 97; 3; 2; 100]; c_end := 4 |}; {| c_set := [2; 99]; c_end := 5 |}].
Example C40_sample_calls : option_map (fun p => (fst (CBuild (fst p)), snd p)) (c_try_inserts (CBuilder_new 2) chunked_calls) =
  Some (chunked_sample, [Inserted true; Inserted true; Inserted false; Failed; Inserted true; Inserted true; Inserted true]) /\
  Forall bytes (map snd chunked_calls) /\ Forall short (map snd chunked_calls).
Proof. repeat split; try reflexivity; repeat constructor; unfold is_byte; try lia. Qed.
Example C40_sample_represents : exists es, represents chunked_sample es /\ increasing es /\ zlen es = 5.
Proof.
  destruct C40_sample_calls as (E & B & Sh). destruct (C40_builder 2 chunked_calls ltac:(lia) B Sh) as (b & ess & E' & Ch & Ec & _ & Inc & _).
  rewrite E' in E. cbn [option_map fst snd] in E. apply some_pair_inv in E as [E _]. rewrite E in Ch. eexists. split; [exists ess; split; [exact Ch | exact Ec]|].
  split; [exact Inc | reflexivity].
Qed.
Example C40_sample_queries : CSet_contains_index chunked_sample [98; 97; 110; 100] = Some (true, 3) /\ CSet_contains_index chunked_sample [98; 97] = Some (false, 2) /\
  CSet_contains_index chunked_sample [99] = Some (true, 4) /\ CSet_contains_index chunked_sample [99; 0] = Some (false, 5) /\ CSet_contains chunked_sample [98] = Some true /\
  CSet_EncodeImpl chunked_sample = [3; 3; 0; 2; 98; 10; 12; 98; 97; 110; 97; 110; 97; 3; 2; 100; 2; 2; 99].
Proof. repeat split; reflexivity. Qed.
(** An empty chunk, chunks out of order, too many chunks *)
Example C40_sample_rejected : CSet_Decode false 10 100 [2; 2; 2; 98; 0] = Some Reject /\ CSet_Decode true 10 100 [2; 2; 2; 98; 2; 2; 98] = Some Reject /\
  CSet_Decode true 1 100 [2; 2; 2; 98; 2; 2; 99] = Some Reject /\
  CSet_Decode true 2 100 [2; 2; 2; 98; 2; 2; 99] = Some (Accept [{| c_set := [2; 98]; c_end := 1 |}; {| c_set := [2; 99]; c_end := 2 |}]).
Proof. repeat split; reflexivity. Qed.
(** Chunk size 0 is not rejected by the constructor, and the first insertion is undefined behaviour. *)
Example C40_chunk_size_zero : CTryInsertNext false (CBuilder_new 0) [98] = None.
Proof. reflexivity. Qed.

Print Assumptions C40_builder. Print Assumptions C40_builder_canonical. Print Assumptions C40_from_sorted. Print Assumptions C40_from_unsorted.
Print Assumptions C40_iteration. Print Assumptions C40_linear. Print Assumptions C40_contains. Print Assumptions C40_contains_total. Print Assumptions C40_compare.
Print Assumptions C40_equal_sound_partial. Print Assumptions C40_built_sets_equal. Print Assumptions C40_equal_refuted.
Print Assumptions C40_decode. Print Assumptions C40_round_trip. Print Assumptions C40_decoded_set_usable.
Print Assumptions C40_decode_whole.
