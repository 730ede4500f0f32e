(** C32, C33, C34: LinearSortedStringSet.  Results [Some _] also say that no assertion fails and nothing is read out of bounds. *)
From Verif Require Import Base.Bytes Spec.VarintSpec Spec.StringSetSpec Model.Varint Model.StringSet Spec.StringSetCalls Proof.VarintProof
  Proof.CodecLemmas Proof.CommonPrefixProof Proof.StringSetProof Proof.StringSetQuery Proof.StringSetBuild Proof.StringSetDecode.

(** *** C32 *)
(** Any sequence of calls of the builder: every call returns what it should, and the set built represents exactly the elements
    which were greater than all before them, in order. *)
Theorem C32_builder calls : Forall bytes (map snd calls) -> Forall short (map snd calls) ->
  exists b, try_inserts Builder_new calls = Some (b, insert_results None (map snd calls)) /\
    set_encoding (fst (Build b)) (kept None (map snd calls)) /\ bytes (fst (Build b)) /\ increasing (kept None (map snd calls)) /\
    b_size b = zlen (kept None (map snd calls)) /\ snd (Build b) = Builder_new.
Proof.
  intros B Sh. destruct (try_inserts_ok calls _ _ builder_new_ok B Sh) as (b & E & (H & Bw & Sz & La & Inc & _)). exists b. auto 10.
Qed.
(** The representation is a function of the elements. *)
Theorem C32_builder_canonical calls1 calls2 b1 b2 rs1 rs2 :
  Forall bytes (map snd calls1) -> Forall short (map snd calls1) -> Forall bytes (map snd calls2) -> Forall short (map snd calls2) ->
  try_inserts Builder_new calls1 = Some (b1, rs1) -> try_inserts Builder_new calls2 = Some (b2, rs2) ->
  kept None (map snd calls1) = kept None (map snd calls2) -> fst (Build b1) = fst (Build b2).
Proof.
  intros B1 S1 B2 S2 T1 T2 E.
  pose proof (try_inserts_canonical calls1 _ _ _ [] builder_new_ok B1 S1 eq_refl T1) as C1.
  pose proof (try_inserts_canonical calls2 _ _ _ [] builder_new_ok B2 S2 eq_refl T2) as C2. cbn [app last_of rev hd_error] in C1, C2.
  rewrite E in C1. congruence.
Qed.
(** FromSorted(): for sorted elements, a set with the same members. *)
Theorem C32_from_sorted moved src : Forall bytes src -> Forall short src -> sorted src ->
  exists enc es, FromSorted moved src = Some enc /\ set_encoding enc es /\ bytes enc /\ increasing es /\ Forall short es /\
    (forall x, In x es <-> In x src) /\ (increasing src -> es = src).
Proof.
  intros B Sh So. unfold FromSorted. destruct (insert_all_ok moved src _ _ builder_new_ok B Sh So) as (b & -> & (H & Bw & Sz & La & Inc & Bs & Ss)).
  exists (b_writer b), (kept None src). cbn [app last_of rev hd_error option_map Build fst] in *. repeat split; auto.
  - intros Hx. apply (kept_in src None So x). auto.
  - intros Hx. apply (kept_in src None So x) in Hx. destruct Hx as [Hx | [_ Hx]]; [exact Hx | discriminate].
  - intros I'. apply kept_increasing. exact I'.
Qed.
(** The precondition of FromSorted() is checked. *)
Theorem C32_from_sorted_checked moved src : Forall bytes src -> Forall short src -> (FromSorted moved src = None <-> ~ sorted src).
Proof.
  intros B Sh. split.
  - intros N So. destruct (C32_from_sorted moved src B Sh So) as (enc & es & E & _). congruence.
  - intros N. unfold FromSorted. destruct (insert_all moved Builder_new src) eqn:E; [|reflexivity]. exfalso. apply N.
    apply (insert_all_crash moved src _ _ builder_new_ok B Sh). congruence.
Qed.
(** FromUnsorted(): a set with the same members, in any case. *)
Theorem C32_from_unsorted moved src : Forall bytes src -> Forall short src ->
  exists enc es, FromUnsorted moved src = Some enc /\ set_encoding enc es /\ bytes enc /\ increasing es /\ Forall short es /\
    (forall x, In x es <-> In x src).
Proof.
  intros B Sh. pose proof (std_sort_perm src) as Pe.
  destruct (C32_from_sorted moved (std_sort src)) as (enc & es & E & H & Be & Inc & Ss & M & _).
  - apply (Permutation_Forall Pe B).
  - apply (Permutation_Forall Pe Sh).
  - apply std_sort_sorted.
  - exists enc, es. repeat split; auto; intros Hx.
    + apply (Permutation_in x (Permutation_sym Pe)). apply M. exact Hx.
    + apply M. apply (Permutation_in x Pe). exact Hx.
Qed.
(** Queries agree with the sequence of elements, for any representation of them (built or decoded). *)
Theorem C32_iteration enc es : bytes enc -> set_encoding enc es -> Forall short es ->
  Set_elements enc = Some es /\ Set_size enc = Some (zlen es) /\ (Set_empty enc = true <-> es = []) /\
  (es <> [] -> Set_first enc = hd_error es /\ Set_last enc = last_of es) /\
  Set_HashValue enc = Some (map HString es ++ [HSize (zlen es)]).
Proof.
  intros B H Sh. split; [apply Set_elements_ok; assumption|]. split; [apply Set_size_ok; assumption|]. split.
  { unfold Set_empty. rewrite Z.eqb_eq. split.
    - intros Z0. pose proof (encodes_count _ _ _ H). destruct es as [|e es]; [reflexivity|]. rewrite zlen_cons in *. pose proof (zlen_nonneg es). lia.
    - intros ->. inversion H. reflexivity. }
  split.
  { intros Ne. destruct es as [|e es]; [contradiction|]. split; [apply Set_first_ok with es; assumption | apply Set_last_ok; assumption]. }
  unfold Set_HashValue. rewrite (Set_elements_ok enc es) by assumption. reflexivity.
Qed.
(** Split elements: the same elements, each with a prefix shared with the previous element. *)
Theorem C32_split_elements enc es : bytes enc -> set_encoding enc es -> Forall short es ->
  exists ss, Set_split_elements enc = Some ss /\ map Split_string ss = es /\ shares [] (map (fun s => (prefix s, suffix s)) ss).
Proof. exact (Set_split_elements_ok enc es). Qed.
(** contains(): membership, and the index of the element or the index where it would be inserted. *)
Theorem C32_contains enc es q : bytes enc -> set_encoding enc es -> Forall short es -> increasing es -> bytes q ->
  exists r, Set_contains enc q = Some (r, index_of q es) /\ (r = true <-> In q es).
Proof.
  intros B H Sh Inc Bq. exists (existsb (list_eqb q) es). rewrite (Set_contains_scan enc es), scan_ok by assumption. split; [reflexivity|].
  rewrite existsb_exists. split; [intros (x & Hx & E); apply list_eqb_eq in E; subst; exact Hx | intros Hx; exists q; split; [exact Hx | apply list_eqb_refl]].
Qed.
(** If contains() returns [true], then the index is that of the element. *)
Theorem C32_index enc es q i : bytes enc -> set_encoding enc es -> Forall short es -> increasing es -> bytes q ->
  Set_contains enc q = Some (true, i) -> nth_error es (Z.to_nat i) = Some q.
Proof.
  intros B H Sh Inc Bq E. destruct (C32_contains enc es q B H Sh Inc Bq) as (r & E' & M). rewrite E in E'. injection E' as <- ->.
  assert (Hq : In q es) by (apply M; reflexivity). clear - Inc Hq. unfold index_of. induction es as [|e es IH]; [destruct Hq|].
  apply increasing_cons in Inc. destruct Inc as [Inc A]. cbn [filter]. destruct Hq as [->|Hq].
  - unfold lessb at 1. rewrite lex_cmp_refl. pose proof (index_of_above q es A) as Z0. unfold index_of in Z0. rewrite Z0. reflexivity.
  - pose proof (proj1 (Forall_forall _ _) A q Hq) as L. unfold lessb at 1. unfold lex_lt in L. rewrite L. rewrite zlen_cons.
    pose proof (zlen_nonneg (filter (fun e => lessb e q) es)). rewrite Z2Nat.inj_add by lia. cbn. apply IH; assumption.
Qed.
Theorem C32_contains_skip_first enc e es q : bytes enc -> set_encoding enc (e :: es) -> Forall short (e :: es) -> increasing (e :: es) ->
  bytes q -> lex_lt e q ->
  exists r, Set_contains_skip_first enc q = Some (r, Some (index_of q (e :: es))) /\ (r = true <-> In q (e :: es)).
Proof.
  intros B H Sh Inc Bq Lt. exists (existsb (list_eqb q) es). rewrite (Set_contains_skip_scan enc e es) by assumption.
  apply increasing_cons in Inc. destruct Inc as [Inc A]. rewrite scan_ok by assumption. split.
  - unfold index_of. cbn [filter]. unfold lessb at 2. unfold lex_lt in Lt. rewrite Lt, zlen_cons. reflexivity.
  - rewrite existsb_exists. cbn [In]. split; [intros (x & Hx & E); apply list_eqb_eq in E; subst; auto|].
    intros [<-|Hx]; [unfold lex_lt in Lt; rewrite lex_cmp_refl in Lt; discriminate | exists q; split; [exact Hx | apply list_eqb_refl]].
Qed.

(** *** C33 *)
(** Decode() accepts exactly the well-formed representations, within the size limit, with elements which (if validation is
    requested) are sorted and unique, also across sets decoded with the same decode state. *)
Theorem C33_decode validate max state src : bytes src -> zlen src < 2 ^ 62 ->
  exists r, DecodeImpl validate max state src = Some r /\
    forall enc rest state', r = Accept (enc, rest, state') <->
      exists t es, src = t ++ enc ++ rest /\ varint_of (zlen enc) t /\ zlen enc <= max /\ set_encoding enc es /\
        (validate = true -> follows (state_last state) es) /\ state' = state_after validate state es.
Proof. exact (DecodeImpl_ok validate max state src). Qed.
(** From an owned source Decode() also requires that nothing follows. *)
Theorem C33_decode_whole validate max src : bytes src -> zlen src < 2 ^ 62 ->
  exists r, Decode validate max src = Some r /\
    forall enc, r = Accept enc <->
      exists t es, src = t ++ enc /\ varint_of (zlen enc) t /\ zlen enc <= max /\ set_encoding enc es /\ (validate = true -> increasing es).
Proof.
  intros B Sh. destruct (C33_decode validate max None src B Sh) as (r & E & A). unfold Decode. rewrite E. destruct r as [[[enc rest] st] |].
  - destruct (proj1 (A enc rest st) eq_refl) as (t & es & H1 & H2 & H3 & H4 & H5 & _). eexists. split; [reflexivity|]. intro enc'.
    destruct (zlen rest =? 0) eqn:R.
    + assert (rest = []) as -> by (destruct rest; [reflexivity | rewrite zlen_cons in R; pose proof (zlen_nonneg rest); lia]). split.
      * intro H. injection H as <-. exists t, es. rewrite app_nil_r in H1. auto.
      * intros (t' & es' & G1 & G2 & G3 & G4 & G5).
        assert (X : Accept (enc, @nil Z, st) = Accept (enc', @nil Z, state_after validate None es')).
        { apply A. exists t', es'. rewrite app_nil_r. auto 10. }
        injection X as -> _. reflexivity.
    + split; [discriminate|]. intros (t' & es' & G1 & G2 & G3 & G4 & G5). exfalso.
      assert (X : Accept (enc, rest, st) = Accept (enc', @nil Z, state_after validate None es')).
      { apply A. exists t', es'. rewrite app_nil_r. auto 10. }
      injection X as _ -> _. discriminate R.
  - eexists. split; [reflexivity|]. intro enc'. split; [discriminate|]. intros (t' & es' & G1 & G2 & G3 & G4 & G5).
    assert (X : Reject = Accept (enc', @nil Z, state_after validate None es')).
    { apply A. exists t', es'. rewrite app_nil_r. auto 10. }
    discriminate X.
Qed.
(** After an accepted Decode() every query of the set is defined and agrees with one sequence of elements, whatever the input
    was and even without validation; with validation the elements are sorted and unique. *)
Theorem C33_decoded_set_usable validate max state src enc rest state' q : bytes src -> zlen src < 2 ^ 62 -> bytes q ->
  DecodeImpl validate max state src = Some (Accept (enc, rest, state')) ->
  exists es, Set_elements enc = Some es /\ Set_size enc = Some (zlen es) /\ (exists r i, Set_contains enc q = Some (r, i)) /\
    (validate = true -> increasing es /\ exists r, Set_contains enc q = Some (r, index_of q es) /\ (r = true <-> In q es)).
Proof.
  intros B Sh Bq H. destruct (C33_decode validate max state src B Sh) as (r & E & A). rewrite H in E. injection E as <-.
  destruct (proj1 (A enc rest state') eq_refl) as (t & es & Es & V & Mx & Se & Fo & _).
  assert (Be : bytes enc) by (rewrite Es, !bytes_app in B; tauto).
  assert (Le : zlen enc < 2 ^ 62) by (rewrite Es, !zlen_app in Sh; pose proof (zlen_nonneg t); pose proof (zlen_nonneg rest); lia).
  pose proof (encodes_short _ _ Le Se) as Ss. exists es. destruct (C32_iteration enc es Be Se Ss) as (I1 & I2 & _). split; [exact I1|]. split; [exact I2|].
  split; [rewrite (Set_contains_scan enc es) by assumption; destruct (scan q es 0); eauto|].
  intros Va. specialize (Fo Va). assert (Inc : increasing es).
  { unfold follows in Fo. destruct (state_last state); [apply increasing_cons in Fo; tauto | exact Fo]. }
  split; [exact Inc|]. apply C32_contains; assumption.
Qed.
(** Decode(Encode(s)) = s, and EncodedSize() is the size. *)
Theorem C33_round_trip validate max enc es rest : bytes enc -> zlen enc < 2 ^ 61 -> set_encoding enc es -> increasing es -> zlen enc <= max ->
  bytes rest -> zlen rest < 2 ^ 61 - 16 ->
  DecodeImpl validate max None (EncodeImpl enc ++ rest) = Some (Accept (enc, rest, None)) /\
  Decode validate max (EncodeImpl enc) = Some (Accept enc) /\ EncodedSize enc = zlen (EncodeImpl enc).
Proof.
  intros B Sh Se Inc Mx Br Lr. destruct (Encode_ok enc es B ltac:(lia) Se) as (Be & V & Ee & Sz).
  assert (Ls : zlen (EncodeImpl enc) <= zlen enc + 10).
  { rewrite Ee, zlen_app. destruct V as (_ & L & _). unfold zlen at 1. lia. }
  assert (W : forall rest, bytes rest -> zlen rest < 2 ^ 61 - 16 -> DecodeImpl validate max None (EncodeImpl enc ++ rest) = Some (Accept (enc, rest, None))).
  { clear rest Br Lr. intros rest Br Lr. destruct (C33_decode validate max None (EncodeImpl enc ++ rest)) as (r & E & A).
    - rewrite bytes_app. auto.
    - rewrite zlen_app. lia.
    - rewrite E. f_equal. apply A. exists (WriteVarint V64 (zlen enc)), es. rewrite Ee, <- app_assoc.
      split; [reflexivity|]. split; [exact V|]. split; [exact Mx|]. split; [exact Se|]. split; [intros _; exact Inc | reflexivity]. }
  split; [auto|]. split; [|exact Sz]. unfold Decode. rewrite <- (app_nil_r (EncodeImpl enc)). rewrite W; [reflexivity | constructor | cbn; lia].
Qed.

(** *** C34 *)
Theorem C34_split_compare a b : Split_Compare a b = lex_cmp (Split_string a) (Split_string b).
Proof. exact (Split_Compare_ok a b). Qed.
Theorem C34_split_compare_string a b : Split_CompareString a b = lex_cmp (Split_string a) b.
Proof. exact (Split_CompareString_ok a b). Qed.
Theorem C34_split_equal_string a b : Split_EqualString a b = true <-> Split_string a = b.
Proof. rewrite Split_EqualString_ok. apply list_eqb_eq. Qed.
(** Access to a split element agrees with the whole string. *)
Theorem C34_split_access e n : 0 <= n <= zlen (Split_string e) ->
  (n < zlen (Split_string e) -> Split_nth e n = nth_error (Split_string e) (Z.to_nat n)) /\
  Split_front e = hd_error (Split_string e) /\ Split_back e = hd_error (rev (Split_string e)) /\
  (exists e', Split_remove_prefix e n = Some e' /\ Split_string e' = zdrop n (Split_string e)) /\
  (exists e', Split_remove_suffix e n = Some e' /\ Split_string e' = ztake (zlen (Split_string e) - n) (Split_string e)).
Proof.
  intros H. split; [intros L; apply Split_nth_ok; lia|]. split; [apply Split_front_ok|]. split; [apply Split_back_ok|].
  split; [apply Split_remove_prefix_ok | apply Split_remove_suffix_ok]; exact H.
Qed.
(** Equality of two split elements is right if the left prefix is not the shorter one... *)
Theorem C34_split_equal_partial a b : zlen (prefix b) <= zlen (prefix a) -> (Split_Equal a b = true <-> Split_string a = Split_string b).
Proof. intros L. rewrite Split_Equal_ok by exact L. apply list_eqb_eq. Qed.
(** ... and wrong in both directions otherwise: two equal elements compare unequal, and two different ones equal. *)
Theorem C34_split_equal_refuted :
  (exists a b, Split_string a = Split_string b /\ Split_Equal a b = false /\ Split_Equal b a = true) /\
  (exists a b, Split_string a <> Split_string b /\ Split_Equal a b = true).
Proof.
  split.
  - exists {| prefix := [1]; suffix := [2; 3] |}, {| prefix := [1; 2]; suffix := [3] |}. repeat split; reflexivity.
  - exists {| prefix := [1]; suffix := [2; 3] |}, {| prefix := [7; 8]; suffix := [3] |}. split; [discriminate | reflexivity].
Qed.
(** Three-way comparison of sets is the lexicographic comparison of their elements, however they are represented. *)
Theorem C34_set_compare ea eb a b : bytes ea -> bytes eb -> set_encoding ea a -> set_encoding eb b -> Forall short a -> Forall short b ->
  exists c, Set_Compare ea eb = Some c /\ c = lex_cmp_list a b /\ (c = Eq <-> a = b).
Proof. intros. exists (lex_cmp_list a b). split; [apply Set_Compare_ok; assumption|]. split; [reflexivity|apply lex_cmp_list_eq]. Qed.
(** Equality of sets never holds for different sets, whatever their representations. *)
Theorem C34_set_equal_sound_partial ea eb a b : bytes ea -> bytes eb -> set_encoding ea a -> set_encoding eb b -> Forall short a -> Forall short b ->
  exists r, Set_Equal ea eb = Some r /\ (r = true -> a = b).
Proof. exact (Set_Equal_sound ea eb a b). Qed.
(** Equality is right for sets made by builders. *)
Theorem C34_built_sets_equal calls1 calls2 b1 b2 rs1 rs2 :
  Forall bytes (map snd calls1) -> Forall short (map snd calls1) -> Forall bytes (map snd calls2) -> Forall short (map snd calls2) ->
  try_inserts Builder_new calls1 = Some (b1, rs1) -> try_inserts Builder_new calls2 = Some (b2, rs2) ->
  exists r, Set_Equal (fst (Build b1)) (fst (Build b2)) = Some r /\ (r = true <-> kept None (map snd calls1) = kept None (map snd calls2)).
Proof.
  intros B1 S1 B2 S2 T1 T2.
  destruct (try_inserts_ok calls1 _ _ builder_new_ok B1 S1) as (b1' & E1 & (H1 & W1 & _ & _ & _ & _ & F1)). rewrite T1 in E1. injection E1 as <- _.
  destruct (try_inserts_ok calls2 _ _ builder_new_ok B2 S2) as (b2' & E2 & (H2 & W2 & _ & _ & _ & _ & F2)). rewrite T2 in E2. injection E2 as <- _.
  cbn [app last_of rev hd_error] in *.
  destruct (Set_Equal_sound _ _ _ _ W1 W2 H1 H2 F1 F2) as (r & E & So). cbn [Build fst]. exists r. split; [exact E|]. split; [exact So|].
  intros K. pose proof (C32_builder_canonical calls1 calls2 b1 b2 rs1 rs2 B1 S1 B2 S2 T1 T2 K) as Can. cbn [Build fst] in Can. rewrite <- Can in E.
  rewrite (Set_Equal_refl _ _ W1 H1 F1) in E. congruence.
Qed.
(** It is wrong for a decoded set with another (valid) representation, and not symmetric: here {"ab1", "ab2"} represented by
    sharing one byte and two bytes. *)
Definition one_byte_shared : list Z := [6; 97; 98; 49; 5; 0; 98; 50].
Definition two_bytes_shared : list Z := [6; 97; 98; 49; 3; 1; 50].
Definition ab12 : list (list Z) := [[97; 98; 49]; [97; 98; 50]].
Theorem C34_set_equal_refuted :
  Decode true 100 (EncodeImpl one_byte_shared) = Some (Accept one_byte_shared) /\
  Decode true 100 (EncodeImpl two_bytes_shared) = Some (Accept two_bytes_shared) /\
  Set_elements one_byte_shared = Some ab12 /\ Set_elements two_bytes_shared = Some ab12 /\
  FromSorted false ab12 = Some two_bytes_shared /\
  Set_Equal one_byte_shared two_bytes_shared = Some false /\ Set_Equal two_bytes_shared one_byte_shared = Some true /\
  Set_Compare one_byte_shared two_bytes_shared = Some Eq.
Proof. repeat split; reflexivity. Qed.

(** *** Non-trivial instances of the hypotheses *)
(** "", "b", "b" (duplicate), "a" (out of order), "banana", "band" *)
Definition sample_calls : list (bool * list Z) :=
  [(true, []); (false, [98]); (true, [98]); (true, [97]); (true, [98; 97; 110; 97; 110; 97]); (false, [98; 97; 110; 100])].
Definition sample_set : list Z := [0; 2; 98; 12; 98; 97; 110; 97; 110; 97; 3; 2; 100].
Definition sample_elements : list (list Z) := [[]; [98]; [98; 97; 110; 97; 110; 97]; [98; 97; 110; 100]].
Example C32_sample_calls : option_map (fun p => (fst (Build (fst p)), snd p)) (try_inserts Builder_new sample_calls) =
  Some (sample_set, [Inserted true; Inserted true; Inserted false; Failed; Inserted true; Inserted true]) /\
  kept None (map snd sample_calls) = sample_elements /\ Forall bytes (map snd sample_calls) /\ Forall short (map snd sample_calls).
Proof. repeat split; try reflexivity; repeat constructor; unfold is_byte; try lia. Qed.
Example C32_sample_encoding : set_encoding sample_set sample_elements /\ bytes sample_set /\ Forall short sample_elements /\ increasing sample_elements.
Proof.
  destruct C32_sample_calls as (E & K & B & Sh). destruct (C32_builder sample_calls B Sh) as (b & E' & H & Bw & Inc & _). rewrite E' in E.
  cbn [option_map fst] in E. apply some_pair_inv in E as [E _]. cbn [Build fst] in *. rewrite E, K in *. split; [exact H|]. split; [exact Bw|].
  split; [repeat constructor; cbn; lia | exact Inc].
Qed.
Example C32_sample_queries : Set_contains sample_set [98; 97; 110; 100] = Some (true, 3) /\ Set_contains sample_set [98; 97] = Some (false, 2) /\
  Set_size sample_set = Some 4 /\ Set_last sample_set = Some [98; 97; 110; 100] /\
  Set_contains_skip_first sample_set [98] = Some (true, Some 1).
Proof. repeat split; reflexivity. Qed.
(** A decode state carried across two sets: the second set must continue after the first one. *)
Example C33_sample : exists d, DecodeImpl true 100 (Some decode_state_new) (EncodeImpl sample_set) = Some (Accept (sample_set, [], Some d)) /\
  DecodeImpl true 100 (Some d) (EncodeImpl sample_set) = Some Reject /\
  exists d', DecodeImpl true 100 (Some d) (EncodeImpl [2; 99] ++ [7]) = Some (Accept ([2; 99], [7], Some d')) /\ ds_cumulative_size d' = 5.
Proof. eexists. split; [reflexivity|]. split; [reflexivity|]. eexists. split; reflexivity. Qed.
(** Unsorted elements, a shared length which is too long, and a truncated element are rejected. *)
Example C33_sample_rejected : Decode true 100 [4; 2; 98; 2; 97] = Some Reject /\ Decode false 100 [4; 2; 98; 2; 97] = Some (Accept [2; 98; 2; 97]) /\
  Decode false 100 [5; 2; 98; 3; 1; 98] = Some Reject /\ Decode false 100 [2; 4; 98] = Some Reject /\ Decode false 3 [4; 2; 98; 2; 97] = Some Reject.
Proof. repeat split; reflexivity. Qed.

Print Assumptions C32_builder. Print Assumptions C32_builder_canonical. Print Assumptions C32_from_sorted.
Print Assumptions C32_from_sorted_checked. Print Assumptions C32_from_unsorted. Print Assumptions C32_iteration.
Print Assumptions C32_split_elements. Print Assumptions C32_contains. Print Assumptions C32_index. Print Assumptions C32_contains_skip_first.
Print Assumptions C33_decode. Print Assumptions C33_decoded_set_usable. Print Assumptions C33_round_trip.
Print Assumptions C34_split_access. Print Assumptions C34_split_compare. Print Assumptions C34_split_compare_string. Print Assumptions C34_split_equal_string.
Print Assumptions C34_split_equal_partial. Print Assumptions C34_split_equal_refuted. Print Assumptions C34_set_compare.
Print Assumptions C34_set_equal_sound_partial. Print Assumptions C34_built_sets_equal. Print Assumptions C34_set_equal_refuted.
Print Assumptions C33_decode_whole.
