(** LinearSortedStringSet: contains(), last(), comparisons. *)
From Verif Require Import Base.Bytes Spec.VarintSpec Spec.StringSetSpec Model.Varint Model.StringSet Proof.VarintProof Proof.CodecLemmas
  Proof.CommonPrefixProof Proof.StringSetProof.

(** ** last() *)
Lemma last_of_cons e es : last_of (e :: es) = Some (last es e).
Proof.
  unfold last_of. destruct es as [|x es] using rev_ind; [reflexivity|]. cbn [rev]. rewrite rev_app_distr. cbn. rewrite last_last. reflexivity.
Qed.
Lemma last_cons_eq (e x : list Z) es : last (e :: es) x = last es e.
Proof. revert e x; induction es as [|y es IH]; intros; [reflexivity|]. change (last (e :: y :: es) x) with (last (y :: es) x). rewrite !IH. reflexivity. Qed.
Lemma last_loop_ok enc : bytes enc -> forall es fuel it p x, siter_at enc it p x -> encodes (Split_string x) (zdrop p enc) es ->
  Forall short es -> (length es < fuel)%nat -> last_loop fuel enc it = Some (last es (Split_string x)).
Proof.
  intros B; induction es as [|e es IH]; intros fuel it p x At H Sh F; (destruct fuel as [|fuel]; [lia|]);
    cbn [last_loop]; pose proof At as (Ci & _ & G); rewrite G.
  - destruct (siter_end _ _ _ _ At H) as (it' & -> & ->). reflexivity.
  - inversion Sh as [|a b Se Ses]; subst a b. cbn [length] in F.
    destruct (siter_step _ _ _ _ _ _ B At H Se) as (it' & p' & x' & n & -> & At' & Ex & _ & _ & H'). rewrite <- Ex in H'.
    pose proof At' as (-> & _). rewrite (IH fuel it' p' x' At' H' Ses) by lia. rewrite Ex. f_equal. symmetry. apply last_cons_eq.
Qed.
Lemma Set_last_ok enc e es : bytes enc -> set_encoding enc (e :: es) -> Forall short (e :: es) -> Set_last enc = last_of (e :: es).
Proof.
  intros B H Sh. unfold Set_last, Set_empty, SplitIterator_begin. pose proof (encodes_fuel _ _ _ H) as F. cbn [length] in F.
  apply set_encoding_at in H. rewrite guard_true by (unfold zlen; lia).
  inversion Sh as [|a b Se Ses]; subst a b.
  destruct (siter_step _ _ _ _ _ _ B (siter_start enc) H Se) as (it' & p' & x' & n & -> & At' & Ex & _ & _ & H'). rewrite <- Ex in H'.
  rewrite (last_loop_ok enc B es _ it' p' x' At' H' Ses) by lia. rewrite Ex, last_of_cons. reflexivity.
Qed.

(** ** split_elements() *)
Lemma split_iterate_ok enc : bytes enc -> forall es fuel it p x, siter_at enc it p x -> encodes (Split_string x) (zdrop p enc) es ->
  Forall short es -> (S (length es) <= fuel)%nat ->
  exists ss, split_iterate fuel enc it = Some (x :: ss) /\ map Split_string ss = es /\
    shares (Split_string x) (map (fun s => (prefix s, suffix s)) ss).
Proof.
  intros B; induction es as [|e es IH]; intros fuel it p x At H Sh F; (destruct fuel as [|fuel]; [lia|]);
    cbn [split_iterate]; pose proof At as (Ci & _ & G); rewrite Ci, G.
  - destruct (siter_end _ _ _ _ At H) as (it' & -> & E). exists []. destruct fuel; cbn [split_iterate]; rewrite E; repeat split.
  - inversion Sh as [|a b Se Ses]; subst a b. cbn [length] in F.
    destruct (siter_step _ _ _ _ _ _ B At H Se) as (it' & p' & x' & n & -> & At' & Ex & Px & Hn & H'). rewrite <- Ex in H'.
    destruct (IH fuel it' p' x' At' H' Ses) as (ss & -> & M & Sr); [lia|]. exists (x' :: ss). cbn [option_map map]. rewrite M, Ex.
    split; [reflexivity|]. split; [reflexivity|]. cbn [shares]. split; [exists n; auto | exact Sr].
Qed.
Lemma Set_split_elements_ok enc es : bytes enc -> set_encoding enc es -> Forall short es ->
  exists ss, Set_split_elements enc = Some ss /\ map Split_string ss = es /\ shares [] (map (fun s => (prefix s, suffix s)) ss).
Proof.
  intros B H Sh. unfold Set_split_elements, SplitIterator_begin. pose proof (encodes_fuel _ _ _ H) as F. apply set_encoding_at in H.
  destruct es as [|e es].
  - destruct (siter_end _ _ _ _ (siter_start enc) H) as (it' & -> & E). exists [].
    destruct (length enc); cbn [split_iterate]; rewrite E; repeat split.
  - inversion Sh as [|a b Se Ses]; subst a b.
    destruct (siter_step _ _ _ _ _ _ B (siter_start enc) H Se) as (it' & p' & x' & n & -> & At' & Ex & Px & Hn & H'). rewrite <- Ex in H'.
    destruct (split_iterate_ok enc B es _ it' p' x' At' H' Ses F) as (ss & -> & M & Sr). exists (x' :: ss). cbn [map]. rewrite M, Ex.
    split; [reflexivity|]. split; [reflexivity|]. cbn [shares]. split; [exists n; auto | exact Sr].
Qed.

(** ** contains() *)
Lemma lex_cmp_lcp a b : lex_cmp a b = lex_cmp (zdrop (lcp a b) a) (zdrop (lcp a b) b).
Proof.
  pose proof (lcp_nonneg a b). pose proof (lcp_take a b (lcp a b) ltac:(lia)) as E. revert E. generalize (lcp a b) as n. intros n E.
  rewrite <- (ztake_zdrop n a) at 1. rewrite <- (ztake_zdrop n b) at 1. rewrite E. apply lex_cmp_app_same.
Qed.
Lemma lcp_heads a b f0 f e0 e : zdrop (lcp a b) a = f0 :: f -> zdrop (lcp a b) b = e0 :: e -> f0 <> e0.
Proof.
  intros Ea Eb. pose proof (lcp_nonneg a b). assert (L : lcp a b = lcp a b + lcp (zdrop (lcp a b) a) (zdrop (lcp a b) b)) by (apply lcp_split'; lia).
  rewrite Ea, Eb in L. cbn [lcp] in L. pose proof (lcp_nonneg f e). destruct (Z.eqb_spec f0 e0); [lia|assumption].
Qed.
Lemma lcp_app_l p s e : lcp (p ++ s) e = if lcp p e <? zlen p then lcp p e else zlen p + lcp s (zdrop (zlen p) e).
Proof.
  revert e; induction p as [|x p IH]; intros e; cbn [app lcp].
  - change (zlen (@nil Z)) with 0. rewrite (zdrop_nonpos 0) by lia. reflexivity.
  - pose proof (zlen_nonneg p). destruct e as [|y e].
    + rewrite zlen_cons. destruct (Z.ltb_spec 0 (1 + zlen p)); [reflexivity|lia].
    + rewrite zlen_cons. destruct (Z.eqb_spec x y) as [->|N].
      * rewrite IH. replace (zdrop (1 + zlen p) (y :: e)) with (zdrop (zlen p) e).
        -- destruct (Z.ltb_spec (lcp p e) (zlen p)), (Z.ltb_spec (1 + lcp p e) (1 + zlen p)); lia.
        -- rewrite Z.add_comm, <- zdrop_zdrop by lia. reflexivity.
      * destruct (Z.ltb_spec 0 (1 + zlen p)); [reflexivity|lia].
Qed.

Definition step_result (f e : list Z) : contains_step :=
  match lex_cmp f e with Eq => CReturn true | Gt => CReturn false | Lt => CContinue (lcp f e) end.
Lemma substr_some s n : 0 <= n <= zlen s -> substr s n = Some (zdrop n s).
Proof. intros. apply guard_true. lia. Qed.

Lemma contains_suffix_ok found e : bytes (prefix found) -> bytes (suffix found) -> bytes e ->
  lcp (prefix found) e = zlen (prefix found) ->
  contains_suffix found e (zlen (prefix found)) = Some (step_result (Split_string found) e).
Proof.
  intros Bp Bs Be L. unfold contains_suffix. set (p := prefix found) in *. set (s := suffix found) in *.
  pose proof (lcp_le p e). pose proof (zlen_nonneg s).
  rewrite guard_true by lia. rewrite Z.sub_diag. rewrite guard_true by lia. rewrite !substr_some by (pose proof (zlen_nonneg p); lia).
  rewrite (zdrop_nonpos 0) by lia. rewrite CommonPrefix_ok by (auto; apply bytes_zdrop; exact Be).
  set (c := lcp s (zdrop (zlen p) e)).
  assert (El : lcp (p ++ s) e = zlen p + c).
  { rewrite lcp_app_l. destruct (Z.ltb_spec (lcp p e) (zlen p)); [lia|]. reflexivity. }
  pose proof (lcp_le s (zdrop (zlen p) e)) as Lc. pose proof (lcp_nonneg s (zdrop (zlen p) e)). fold c in Lc, H1. rewrite zlen_zdrop in Lc.
  pose proof (zlen_nonneg p).
  replace (zlen p + c - zlen p) with c by lia. rewrite guard_true by lia. rewrite !substr_some by lia.
  unfold step_result, Split_string. fold p s. rewrite lex_cmp_lcp, El.
  assert (Ed : zdrop (zlen p + c) (p ++ s) = zdrop c s) by (rewrite zdrop_app_r by lia; f_equal; lia).
  rewrite Ed. destruct (zdrop c s) as [|f0 f] eqn:Ef; destruct (zdrop (zlen p + c) e) as [|e0 e'] eqn:Ee; cbn [lex_cmp]; try reflexivity.
  assert (N : f0 <> e0) by (apply (lcp_heads (p ++ s) e f0 f e0 e'); rewrite El; [exact Ed | exact Ee]).
  destruct (Z.eqb_spec f0 e0) as [|_]; [contradiction|]. cbn [negb guard].
  destruct (Z.compare_spec f0 e0); [contradiction | |]; destruct (Z.ltb_spec e0 f0); try lia; reflexivity.
Qed.
Lemma contains_body_ok found e cl : bytes (prefix found) -> bytes (suffix found) -> bytes e ->
  0 <= cl -> Z.min cl (zlen (prefix found)) <= lcp (prefix found) e ->
  contains_body found e cl = Some (step_result (Split_string found) e).
Proof.
  intros Bp Bs Be Hc L. unfold contains_body. set (p := prefix found) in *. set (s := suffix found) in *.
  pose proof (lcp_le p e). pose proof (zlen_nonneg p). set (m := Z.min cl (zlen p)) in *.
  rewrite guard_true by lia. destruct (Z.ltb_spec m (zlen p)) as [Lm|Lm].
  - rewrite !substr_some by lia. rewrite CommonPrefix_ok by (apply bytes_zdrop; assumption).
    rewrite <- lcp_split' by lia. destruct (Z.ltb_spec (lcp p e) (zlen p)) as [L2|L2].
    + pose proof (lcp_nonneg p e). rewrite guard_true by lia. rewrite !substr_some by lia.
      assert (El : lcp (p ++ s) e = lcp p e).
      { rewrite lcp_app_l. destruct (Z.ltb_spec (lcp p e) (zlen p)); [reflexivity|lia]. }
      unfold step_result, Split_string. fold p s. rewrite lex_cmp_lcp, El, (zdrop_app_l _ p s) by lia.
      destruct (zdrop (lcp p e) p) as [|f0 f] eqn:Ef.
      * assert (zlen (zdrop (lcp p e) p) = 0) by (rewrite Ef; reflexivity). rewrite zlen_zdrop in *. lia.
      * cbn [app]. destruct (zdrop (lcp p e) e) as [|e0 e'] eqn:Ee; cbn [lex_cmp]; [reflexivity|].
        pose proof (lcp_heads p e f0 f e0 e' Ef Ee) as N. destruct (Z.eqb_spec f0 e0) as [|_]; [contradiction|]. cbn [negb guard].
        destruct (Z.compare_spec f0 e0); [contradiction | |]; destruct (Z.ltb_spec e0 f0); try lia; reflexivity.
    + replace (lcp p e) with (zlen p) by lia. apply contains_suffix_ok; auto. fold p. lia.
  - replace m with (zlen p) by lia. apply contains_suffix_ok; auto. fold p. lia.
Qed.

(** What the linear search computes, for elements in any order: it stops at the first element not less than [q]. *)
Fixpoint scan (q : list Z) (es : list (list Z)) (i : Z) : bool * Z :=
  match es with
  | [] => (false, i)
  | e :: es' => match lex_cmp e q with Eq => (true, i) | Gt => (false, i) | Lt => scan q es' (i + 1) end
  end.

Lemma siter_bytes enc it p x : bytes enc -> siter_at enc it p x -> bytes (Split_string x) -> bytes (prefix x) /\ bytes (suffix x).
Proof. intros B At H. unfold Split_string in H. rewrite bytes_app in H. exact H. Qed.

Lemma lcp_prefix_le n a q : 0 <= n <= zlen a -> Z.min (lcp a q) n <= lcp (ztake n a) q.
Proof.
  intros H. pose proof (lcp_app_l (ztake n a) (zdrop n a) q) as E. rewrite ztake_zdrop, zlen_ztake in E.
  pose proof (lcp_nonneg (ztake n a) q). destruct (Z.ltb_spec (lcp (ztake n a) q) (Z.max 0 (Z.min n (zlen a)))); lia.
Qed.

(** [cl]: a lower bound of the common prefix of [q] and the previous element *)
Lemma contains_loop_ok enc q : bytes enc -> bytes q -> forall es fuel it p x cl i, siter_at enc it p x ->
  encodes (Split_string x) (zdrop p enc) es -> bytes (Split_string x) ->
  Forall short es -> 0 <= cl -> Z.min cl (zlen (prefix x)) <= lcp (prefix x) q -> (S (length es) <= fuel)%nat ->
  ContainsImpl_loop fuel enc q it cl i = Some (scan q (Split_string x :: es) i).
Proof.
  intros B Bq; induction es as [|e es IH]; intros fuel it p x cl i At H Bx Sh Hc L F; (destruct fuel as [|fuel]; [lia|]);
    cbn [ContainsImpl_loop scan]; pose proof At as (Ci & _ & G); rewrite Ci, G;
    destruct (siter_bytes _ _ _ _ B At Bx) as [Bp Bs]; rewrite contains_body_ok by auto; unfold step_result;
    destruct (lex_cmp (Split_string x) q) eqn:C; try reflexivity.
  - destruct (siter_end _ _ _ _ At H) as (it' & -> & E). destruct fuel; cbn [ContainsImpl_loop]; rewrite E; reflexivity.
  - inversion Sh as [|a b Se Ses]; subst a b. cbn [length] in F.
    assert (Bes : Forall bytes (e :: es)) by (apply (encodes_bytes _ _ _ Bx (bytes_zdrop p enc B) H)).
    inversion Bes as [|a b Be _]; subst a b.
    destruct (siter_step _ _ _ _ _ _ B At H Se) as (it' & p' & x' & n & -> & At' & Ex & Px & Hn & H'). rewrite <- Ex in H', Be |- *.
    apply (IH fuel it' p' x'); auto; [apply lcp_nonneg | | lia].
    rewrite Px, zlen_ztake. replace (Z.max 0 (Z.min n (zlen (Split_string x)))) with n by lia. apply lcp_prefix_le. exact Hn.
Qed.
Lemma Set_contains_scan enc es q : bytes enc -> set_encoding enc es -> Forall short es -> bytes q ->
  Set_contains enc q = Some (scan q es 0).
Proof.
  intros B H Sh Bq. unfold Set_contains, SplitIterator_begin, ContainsImpl. pose proof (encodes_fuel _ _ _ H) as F.
  pose proof (encodes_bytes _ _ _ bytes_nil B H) as Bes. apply set_encoding_at in H. destruct es as [|e es].
  - destruct (siter_end _ _ _ _ (siter_start enc) H) as (it' & -> & E). destruct (length enc); cbn [ContainsImpl_loop]; rewrite E; reflexivity.
  - inversion Sh as [|a b Se Ses]; subst a b. inversion Bes as [|a b Be _]; subst a b.
    destruct (siter_step _ _ _ _ _ _ B (siter_start enc) H Se) as (it' & p' & x' & n & -> & At' & Ex & Px & Hn & H'). rewrite <- Ex in H', Be |- *.
    apply (contains_loop_ok enc q B Bq es _ it' p' x'); auto; [lia|]. rewrite Z.min_l by apply zlen_nonneg. apply lcp_nonneg.
Qed.
Lemma Set_contains_skip_scan enc e es q : bytes enc -> set_encoding enc (e :: es) -> Forall short (e :: es) -> bytes q ->
  Set_contains_skip_first enc q = Some (let (r, i) := scan q es 1 in (r, Some i)).
Proof.
  intros B H Sh Bq. unfold Set_contains_skip_first, SplitIterator_begin, ContainsImpl. pose proof (encodes_fuel _ _ _ H) as F. cbn [length] in F.
  pose proof (encodes_bytes _ _ _ bytes_nil B H) as Bes. apply set_encoding_at in H.
  inversion Sh as [|a b Se Ses]; subst a b. inversion Bes as [|a b Be Bes']; subst a b.
  destruct (siter_step _ _ _ _ _ _ B (siter_start enc) H Se) as (it & p & x & n & -> & At & Ex & Px & Hn & H'). rewrite <- Ex in H'.
  pose proof At as (-> & _). destruct es as [|e2 es].
  - destruct (siter_end _ _ _ _ At H') as (it' & -> & E). destruct (length enc); cbn [ContainsImpl_loop]; rewrite E; reflexivity.
  - inversion Ses as [|a b Se2 Ses2]; subst a b. inversion Bes' as [|a b Be2 _]; subst a b.
    destruct (siter_step _ _ _ _ _ _ B At H' Se2) as (it' & p' & x' & n' & -> & At' & Ex' & Px' & Hn' & H''). rewrite <- Ex' in H'', Be2 |- *.
    rewrite (contains_loop_ok enc q B Bq es _ it' p' x'); auto; [| lia | | cbn [length] in F; lia].
    + destruct (scan q (Split_string x' :: es) 1). reflexivity.
    + rewrite Z.min_l by apply zlen_nonneg. apply lcp_nonneg.
Qed.

(** For sorted elements the linear search is membership and the index. *)
Lemma increasing_cons e es : increasing (e :: es) <-> increasing es /\ Forall (lex_lt e) es.
Proof. split; [intros H; inversion H; auto | intros [H1 H2]; constructor; auto]. Qed.
Lemma index_of_above q es : Forall (lex_lt q) es -> index_of q es = 0.
Proof.
  unfold index_of. induction 1 as [|e es L _ IH]; [reflexivity|]. cbn [filter]. unfold lessb at 1. unfold lex_lt in L.
  rewrite lex_cmp_antisym, L. exact IH.
Qed.
Lemma index_of_nonneg q es : 0 <= index_of q es.
Proof. apply zlen_nonneg. Qed.
Lemma scan_ok q es i : increasing es -> scan q es i = (existsb (list_eqb q) es, i + index_of q es).
Proof.
  revert i; induction es as [|e es IH]; intros i H; [cbn; f_equal; lia|].
  apply increasing_cons in H. destruct H as [H A]. cbn [scan existsb].
  destruct (lex_cmp e q) eqn:C.
  - apply lex_cmp_eq in C. subst e. rewrite list_eqb_refl. unfold index_of. cbn [filter].
    unfold lessb at 1. rewrite lex_cmp_refl. fold (index_of q es). rewrite index_of_above by exact A. f_equal. lia.
  - rewrite IH by exact H. assert (E : list_eqb q e = false).
    { destruct (list_eqb q e) eqn:E; [|reflexivity]. apply list_eqb_eq in E. subst. rewrite lex_cmp_refl in C. discriminate. }
    rewrite E. f_equal. unfold index_of. cbn [filter]. unfold lessb at 2. rewrite C. rewrite zlen_cons. lia.
  - assert (Lq : lex_lt q e) by (unfold lex_lt; rewrite lex_cmp_antisym, C; reflexivity).
    assert (A' : Forall (lex_lt q) (e :: es)).
    { constructor; [exact Lq|]. eapply Forall_impl; [|exact A]. intros a Ha. apply lex_lt_trans with e; assumption. }
    rewrite (index_of_above q (e :: es) A'). rewrite Z.add_0_r. f_equal. symmetry.
    change (existsb (list_eqb q) (e :: es) = false). clear - A'. induction A' as [|a l La _ IH]; [reflexivity|]. cbn [existsb]. rewrite IH.
    destruct (list_eqb q a) eqn:E; [|reflexivity]. apply list_eqb_eq in E. subst. apply lex_lt_irrefl in La. contradiction.
Qed.

(** ** SplitElement comparisons *)
Lemma app_eq_len (a b s t : list Z) : zlen a = zlen b -> (a ++ s = b ++ t <-> a = b /\ s = t).
Proof.
  revert b; induction a as [|x a IH]; intros [|y b] L; rewrite ?zlen_cons in L; change (zlen (@nil Z)) with 0 in L;
    try (pose proof (zlen_nonneg a); lia); try (pose proof (zlen_nonneg b); lia); cbn [app].
  - intuition congruence.
  - specialize (IH b ltac:(lia)). split.
    + intros E. injection E as -> E. apply IH in E. destruct E as [-> ->]. auto.
    + intros [E ->]. injection E as -> ->. reflexivity.
Qed.
Lemma list_eqb_iff a b c : (a = b <-> c = true) -> list_eqb a b = c.
Proof.
  intros H. destruct (list_eqb a b) eqn:E.
  - apply list_eqb_eq in E. symmetry. apply H. exact E.
  - destruct c; [|reflexivity]. assert (a = b) by (apply H; reflexivity). rewrite <- list_eqb_eq in *. congruence.
Qed.
Lemma Split_EqualString_ok a b : Split_EqualString a b = list_eqb (Split_string a) b.
Proof.
  symmetry. apply list_eqb_iff. unfold Split_EqualString, Split_size, Split_string. rewrite <- zlen_app.
  destruct (Z.eqb_spec (zlen (prefix a ++ suffix a)) (zlen b)) as [L|L]; cbn [negb].
  - rewrite andb_true_iff, !list_eqb_eq. rewrite <- (ztake_zdrop (zlen (prefix a)) b) at 1. apply app_eq_len.
    rewrite zlen_app in L. rewrite zlen_ztake. pose proof (zlen_nonneg (prefix a)); pose proof (zlen_nonneg (suffix a)). lia.
  - split; [intros E; rewrite E in L; contradiction | discriminate].
Qed.
Lemma lex_cmp_or a b s t : zlen a = zlen b -> lex_cmp (a ++ s) (b ++ t) = or_else (lex_cmp a b) (lex_cmp s t).
Proof.
  intros L. destruct (lex_cmp a b) eqn:C; cbn [or_else].
  - apply lex_cmp_eq in C. subst b. apply lex_cmp_app_same.
  - rewrite lex_cmp_app_len by (auto; congruence). exact C.
  - rewrite lex_cmp_app_len by (auto; congruence). exact C.
Qed.
Lemma lex_cmp_longer (a : list Z) : a <> [] -> lex_cmp a [] = Gt.
Proof. destruct a; [contradiction|reflexivity]. Qed.
Lemma Split_CompareString_ok a b : Split_CompareString a b = lex_cmp (Split_string a) b.
Proof.
  unfold Split_CompareString, Split_string. pose proof (zlen_nonneg (prefix a)). pose proof (zlen_nonneg b).
  destruct (Z.leb_spec (zlen (prefix a)) (zlen b)) as [L|L].
  - rewrite <- (ztake_zdrop (zlen (prefix a)) b) at 3. symmetry. apply lex_cmp_or. rewrite zlen_ztake. lia.
  - transitivity (lex_cmp (ztake (zlen b) (prefix a) ++ zdrop (zlen b) (prefix a) ++ suffix a) (b ++ []));
      [|rewrite app_nil_r, app_assoc, ztake_zdrop; reflexivity].
    rewrite lex_cmp_or by (rewrite zlen_ztake; lia). f_equal. symmetry. apply lex_cmp_longer. intros E.
    apply (f_equal zlen) in E. rewrite zlen_app, zlen_zdrop in E. change (zlen (@nil Z)) with 0 in E. pose proof (zlen_nonneg (suffix a)). lia.
Qed.
Lemma Split_Compare_ok a b : Split_Compare a b = lex_cmp (Split_string a) (Split_string b).
Proof.
  unfold Split_Compare. rewrite !Split_CompareString_ok. unfold Split_string. cbn [prefix suffix].
  pose proof (zlen_nonneg (prefix a)). pose proof (zlen_nonneg (prefix b)).
  destruct (Z.ltb_spec (zlen (prefix a)) (zlen (prefix b))) as [L|L].
  - transitivity (lex_cmp (prefix a ++ suffix a) (ztake (zlen (prefix a)) (prefix b) ++ zdrop (zlen (prefix a)) (prefix b) ++ suffix b));
      [|rewrite app_assoc, ztake_zdrop; reflexivity].
    rewrite lex_cmp_or by (rewrite zlen_ztake; lia). f_equal. symmetry. apply lex_cmp_antisym.
  - destruct (Z.eqb_spec (zlen (prefix a)) (zlen (prefix b))) as [E|N].
    + symmetry. apply lex_cmp_or. exact E.
    + transitivity (lex_cmp (ztake (zlen (prefix b)) (prefix a) ++ zdrop (zlen (prefix b)) (prefix a) ++ suffix a) (prefix b ++ suffix b));
        [|rewrite app_assoc, ztake_zdrop; reflexivity].
      rewrite lex_cmp_or by (rewrite zlen_ztake; lia). reflexivity.
Qed.
(** The equality is right when the prefix of the left operand is not shorter. *)
Lemma Split_Equal_ok a b : zlen (prefix b) <= zlen (prefix a) -> Split_Equal a b = list_eqb (Split_string a) (Split_string b).
Proof.
  intros L. symmetry. apply list_eqb_iff. unfold Split_Equal, Split_size, Split_string. rewrite <- !zlen_app.
  pose proof (zlen_nonneg (prefix a)). pose proof (zlen_nonneg (prefix b)).
  destruct (Z.eqb_spec (zlen (prefix a ++ suffix a)) (zlen (prefix b ++ suffix b))) as [E|E]; cbn [negb];
    [|split; [intros E'; rewrite E' in E; contradiction | discriminate]].
  destruct (Z.ltb_spec (zlen (prefix a)) (zlen (prefix b))); [lia|].
  destruct (Z.eqb_spec (zlen (prefix a)) (zlen (prefix b))) as [E2|N].
  - rewrite andb_true_iff, !list_eqb_eq. apply app_eq_len. exact E2.
  - rewrite !andb_true_iff, !list_eqb_eq. rewrite !zlen_app in E.
    rewrite <- (ztake_zdrop (zlen (prefix b)) (prefix a)) at 1. rewrite <- app_assoc.
    rewrite app_eq_len by (rewrite zlen_ztake; lia).
    rewrite <- (ztake_zdrop (zlen (prefix a) - zlen (prefix b)) (suffix b)) at 1.
    pose proof (zlen_nonneg (suffix a)).
    rewrite app_eq_len by (rewrite zlen_ztake, zlen_zdrop; lia). tauto.
Qed.
(** When both prefixes come from the same string, the wrong branch always answers "different". *)
Lemma Split_Equal_shorter a b n m s : prefix a = ztake n s -> prefix b = ztake m s -> zlen (prefix a) < zlen (prefix b) ->
  Split_Equal a b = false.
Proof.
  intros Ea Eb L. unfold Split_Equal. destruct (Split_size a =? Split_size b); cbn [negb]; [|reflexivity].
  destruct (Z.ltb_spec (zlen (prefix a)) (zlen (prefix b))); [|lia].
  assert (E : list_eqb (prefix a) (ztake (zlen (prefix a)) (prefix b)) = true).
  { apply list_eqb_eq. rewrite Ea, Eb, ztake_ztake, zlen_ztake in *. rewrite zlen_ztake in *.
    destruct (Z.le_ge_cases n 0).
    - rewrite !ztake_nonpos by lia. reflexivity.
    - destruct (Z.le_ge_cases n (zlen s)); [f_equal; lia|]. lia. }
  rewrite E. reflexivity.
Qed.
Lemma Split_Equal_sound a b n m s : prefix a = ztake n s -> prefix b = ztake m s -> Split_Equal a b = true -> Split_string a = Split_string b.
Proof.
  intros Ea Eb H. destruct (Z.lt_ge_cases (zlen (prefix a)) (zlen (prefix b))) as [L|L].
  - rewrite (Split_Equal_shorter a b n m s) in H by assumption. discriminate.
  - rewrite Split_Equal_ok in H by lia. apply list_eqb_eq. exact H.
Qed.

(** ** Comparison of sets *)
Lemma compare_loop_ok ea eb : bytes ea -> bytes eb -> forall a b fuel ia pa xa ib pb xb,
  siter_at ea ia pa xa -> encodes (Split_string xa) (zdrop pa ea) a -> Forall short a ->
  siter_at eb ib pb xb -> encodes (Split_string xb) (zdrop pb eb) b -> Forall short b ->
  (S (length a) < fuel)%nat ->
  compare_loop fuel ea eb ia ib = Some (lex_cmp_list (Split_string xa :: a) (Split_string xb :: b)).
Proof.
  intros Ba Bb. induction a as [|e a IH]; intros b fuel ia pa xa ib pb xb Aa Ha Sa Ab Hb Sb F; (destruct fuel as [|fuel]; [lia|]);
    cbn [compare_loop]; pose proof Aa as (Ca & _ & Ga); pose proof Ab as (Cb & _ & Gb); rewrite Ca, Cb, Ga, Gb, Split_Compare_ok;
    cbn [lex_cmp_list]; destruct (lex_cmp (Split_string xa) (Split_string xb)) eqn:C; try reflexivity.
  - destruct (siter_end _ _ _ _ Aa Ha) as (ia' & -> & E). destruct fuel as [|fuel]; [cbn [length] in F; lia|]. destruct b as [|y b].
    + destruct (siter_end _ _ _ _ Ab Hb) as (ib' & -> & E'). cbn [compare_loop]. rewrite E, E'. reflexivity.
    + inversion Sb as [|u v Se Ses]; subst u v. destruct (siter_step _ _ _ _ _ _ Bb Ab Hb Se) as (ib' & p' & x' & n & -> & At' & _).
      cbn [compare_loop]. pose proof At' as (E' & _). rewrite E, E'. reflexivity.
  - inversion Sa as [|u v Se Ses]; subst u v. cbn [length] in F.
    destruct (siter_step _ _ _ _ _ _ Ba Aa Ha Se) as (ia' & p & x & n & -> & At & Ex & _ & _ & H'). destruct b as [|y b].
    + destruct (siter_end _ _ _ _ Ab Hb) as (ib' & -> & E'). destruct fuel as [|fuel]; [lia|]. cbn [compare_loop].
      pose proof At as (E & _). rewrite E, E'. reflexivity.
    + inversion Sb as [|u v Seb Sesb]; subst u v. destruct (siter_step _ _ _ _ _ _ Bb Ab Hb Seb) as (ib' & p' & x' & n' & -> & At' & Ex' & _ & _ & H'').
      rewrite <- Ex in H'. rewrite <- Ex' in H''. rewrite (IH b fuel ia' p x ib' p' x') by (auto; lia). rewrite Ex, Ex'. reflexivity.
Qed.
Lemma Set_Compare_ok ea eb a b : bytes ea -> bytes eb -> set_encoding ea a -> set_encoding eb b -> Forall short a -> Forall short b ->
  Set_Compare ea eb = Some (lex_cmp_list a b).
Proof.
  intros Ba Bb Ha Hb Sa Sb. unfold Set_Compare, SplitIterator_begin. pose proof (encodes_fuel _ _ _ Ha) as F.
  apply set_encoding_at in Ha, Hb. destruct a as [|e a], b as [|y b]; cbn [length] in F.
  - destruct (siter_end _ _ _ _ (siter_start ea) Ha) as (ia & -> & E). destruct (siter_end _ _ _ _ (siter_start eb) Hb) as (ib & -> & E').
    cbn [compare_loop]. rewrite E, E'. reflexivity.
  - destruct (siter_end _ _ _ _ (siter_start ea) Ha) as (ia & -> & E). inversion Sb as [|u v Se Ses]; subst u v.
    destruct (siter_step _ _ _ _ _ _ Bb (siter_start eb) Hb Se) as (ib & p' & x' & n & -> & (E' & _) & _).
    cbn [compare_loop]. rewrite E, E'. reflexivity.
  - inversion Sa as [|u v Se Ses]; subst u v. destruct (siter_step _ _ _ _ _ _ Ba (siter_start ea) Ha Se) as (ia & p' & x' & n & -> & (E & _) & _).
    destruct (siter_end _ _ _ _ (siter_start eb) Hb) as (ib & -> & E'). cbn [compare_loop]. rewrite E, E'. reflexivity.
  - inversion Sa as [|u v Se Ses]; subst u v. destruct (siter_step _ _ _ _ _ _ Ba (siter_start ea) Ha Se) as (ia & p & x & n & -> & At & Ex & _ & _ & H').
    inversion Sb as [|u v Se' Ses']; subst u v. destruct (siter_step _ _ _ _ _ _ Bb (siter_start eb) Hb Se') as (ib & p' & x' & n' & -> & At' & Ex' & _ & _ & H'').
    rewrite <- Ex in H'. rewrite <- Ex' in H''. rewrite (compare_loop_ok ea eb Ba Bb a b _ ia p x ib p' x') by (auto; lia). rewrite Ex, Ex'. reflexivity.
Qed.
Lemma lex_cmp_list_eq a b : lex_cmp_list a b = Eq <-> a = b.
Proof.
  revert b; induction a as [|x a IH]; intros [|y b]; cbn [lex_cmp_list]; try (split; congruence).
  destruct (lex_cmp x y) eqn:C.
  - apply lex_cmp_eq in C. subst. rewrite IH. split; congruence.
  - split; [discriminate|]. intros E. injection E as -> ->. rewrite lex_cmp_refl in C. discriminate.
  - split; [discriminate|]. intros E. injection E as -> ->. rewrite lex_cmp_refl in C. discriminate.
Qed.

(** ** operator== of sets: never wrong when it answers "equal", and right for sets with the same encoding *)
Lemma equal_loop_ok ea eb : bytes ea -> bytes eb -> forall a b fuel ia pa xa ib pb xb prev na nb,
  siter_at ea ia pa xa -> encodes (Split_string xa) (zdrop pa ea) a -> Forall short a ->
  siter_at eb ib pb xb -> encodes (Split_string xb) (zdrop pb eb) b -> Forall short b ->
  prefix xa = ztake na prev -> prefix xb = ztake nb prev -> (S (length a) < fuel)%nat ->
  exists r, equal_loop fuel ea eb ia ib = Some r /\ (r = true -> Split_string xa :: a = Split_string xb :: b).
Proof.
  intros Ba Bb. induction a as [|e a IH]; intros b fuel ia pa xa ib pb xb prev na nb Aa Ha Sa Ab Hb Sb Pa Pb F; (destruct fuel as [|fuel]; [lia|]);
    cbn [equal_loop]; pose proof Aa as (Ca & _ & Ga); pose proof Ab as (Cb & _ & Gb); rewrite Ca, Cb, Ga, Gb;
    destruct (Split_Equal xa xb) eqn:C; cbn [negb]; try (exists false; split; [reflexivity|discriminate]);
    apply (Split_Equal_sound xa xb na nb prev) in C; auto.
  - destruct (siter_end _ _ _ _ Aa Ha) as (ia' & -> & E). destruct fuel as [|fuel]; [cbn [length] in F; lia|]. destruct b as [|y b].
    + destruct (siter_end _ _ _ _ Ab Hb) as (ib' & -> & E'). cbn [equal_loop]. rewrite E, E'. exists true. split; [reflexivity|]. congruence.
    + inversion Sb as [|u v Se Ses]; subst u v. destruct (siter_step _ _ _ _ _ _ Bb Ab Hb Se) as (ib' & p' & x' & n & -> & At' & _).
      cbn [equal_loop]. pose proof At' as (E' & _). rewrite E, E'. exists false. split; [reflexivity|discriminate].
  - inversion Sa as [|u v Se Ses]; subst u v. cbn [length] in F.
    destruct (siter_step _ _ _ _ _ _ Ba Aa Ha Se) as (ia' & p & x & n & -> & At & Ex & Px & _ & H'). destruct b as [|y b].
    + destruct (siter_end _ _ _ _ Ab Hb) as (ib' & -> & E'). destruct fuel as [|fuel]; [lia|]. cbn [equal_loop].
      pose proof At as (E & _). rewrite E, E'. exists false. split; [reflexivity|discriminate].
    + inversion Sb as [|u v Seb Sesb]; subst u v. destruct (siter_step _ _ _ _ _ _ Bb Ab Hb Seb) as (ib' & p' & x' & n' & -> & At' & Ex' & Px' & _ & H'').
      rewrite <- Ex in H'. rewrite <- Ex' in H''. rewrite <- C in Px'.
      destruct (IH b fuel ia' p x ib' p' x' (Split_string xa) n n') as (r & -> & Hr); auto; [lia|].
      exists r. split; [reflexivity|]. intros T. specialize (Hr T). rewrite Ex, Ex' in Hr. rewrite C, Hr. reflexivity.
Qed.
Lemma Set_Equal_sound ea eb a b : bytes ea -> bytes eb -> set_encoding ea a -> set_encoding eb b -> Forall short a -> Forall short b ->
  exists r, Set_Equal ea eb = Some r /\ (r = true -> a = b).
Proof.
  intros Ba Bb Ha Hb Sa Sb. unfold Set_Equal, SplitIterator_begin. pose proof (encodes_fuel _ _ _ Ha) as F.
  apply set_encoding_at in Ha, Hb. destruct a as [|e a], b as [|y b]; cbn [length] in F.
  - destruct (siter_end _ _ _ _ (siter_start ea) Ha) as (ia & -> & E). destruct (siter_end _ _ _ _ (siter_start eb) Hb) as (ib & -> & E').
    cbn [equal_loop]. rewrite E, E'. exists true. auto.
  - destruct (siter_end _ _ _ _ (siter_start ea) Ha) as (ia & -> & E). inversion Sb as [|u v Se Ses]; subst u v.
    destruct (siter_step _ _ _ _ _ _ Bb (siter_start eb) Hb Se) as (ib & p' & x' & n & -> & (E' & _) & _).
    cbn [equal_loop]. rewrite E, E'. exists false. split; [reflexivity|discriminate].
  - inversion Sa as [|u v Se Ses]; subst u v. destruct (siter_step _ _ _ _ _ _ Ba (siter_start ea) Ha Se) as (ia & p' & x' & n & -> & (E & _) & _).
    destruct (siter_end _ _ _ _ (siter_start eb) Hb) as (ib & -> & E'). cbn [equal_loop]. rewrite E, E'. exists false. split; [reflexivity|discriminate].
  - inversion Sa as [|u v Se Ses]; subst u v. destruct (siter_step _ _ _ _ _ _ Ba (siter_start ea) Ha Se) as (ia & p & x & n & -> & At & Ex & Px & _ & H').
    inversion Sb as [|u v Se' Ses']; subst u v. destruct (siter_step _ _ _ _ _ _ Bb (siter_start eb) Hb Se') as (ib & p' & x' & n' & -> & At' & Ex' & Px' & _ & H'').
    rewrite <- Ex in H'. rewrite <- Ex' in H''.
    destruct (equal_loop_ok ea eb Ba Bb a b (S (length ea)) ia p x ib p' x' (Split_string empty_split) n n') as (r & -> & Hr); auto; [lia|].
    exists r. split; [reflexivity|]. rewrite Ex, Ex' in Hr. exact Hr.
Qed.
Lemma Split_Equal_refl x : Split_Equal x x = true.
Proof. rewrite Split_Equal_ok by lia. apply list_eqb_refl. Qed.
Lemma equal_loop_refl enc : bytes enc -> forall es fuel it p x, siter_at enc it p x -> encodes (Split_string x) (zdrop p enc) es ->
  Forall short es -> (S (length es) < fuel)%nat -> equal_loop fuel enc enc it it = Some true.
Proof.
  intros B; induction es as [|e es IH]; intros fuel it p x At H Sh F; (destruct fuel as [|fuel]; [lia|]);
    cbn [equal_loop]; pose proof At as (Ci & _ & G); rewrite Ci, G, Split_Equal_refl; cbn [negb].
  - destruct (siter_end _ _ _ _ At H) as (it' & -> & E). destruct fuel; [cbn [length] in F; lia|]. cbn [equal_loop]. rewrite E. reflexivity.
  - inversion Sh as [|a b Se Ses]; subst a b. cbn [length] in F.
    destruct (siter_step _ _ _ _ _ _ B At H Se) as (it' & p' & x' & n & -> & At' & Ex & _ & _ & H'). rewrite <- Ex in H'.
    apply (IH fuel it' p' x'); auto. lia.
Qed.
Lemma Set_Equal_refl enc es : bytes enc -> set_encoding enc es -> Forall short es -> Set_Equal enc enc = Some true.
Proof.
  intros B H Sh. unfold Set_Equal, SplitIterator_begin. pose proof (encodes_fuel _ _ _ H) as F. apply set_encoding_at in H. destruct es as [|e es].
  - destruct (siter_end _ _ _ _ (siter_start enc) H) as (it' & -> & E). cbn [equal_loop]. rewrite E. reflexivity.
  - inversion Sh as [|a b Se Ses]; subst a b. cbn [length] in F.
    destruct (siter_step _ _ _ _ _ _ B (siter_start enc) H Se) as (it' & p' & x' & n & -> & At' & Ex & _ & _ & H'). rewrite <- Ex in H'.
    apply (equal_loop_refl enc B es _ it' p' x'); auto. lia.
Qed.

(** ** Access to split elements *)
Lemma Split_nth_ok e i : 0 <= i < zlen (Split_string e) -> Split_nth e i = nth_error (Split_string e) (Z.to_nat i).
Proof.
  unfold Split_nth, Split_size, Split_string. rewrite zlen_app. intros H. rewrite guard_true by lia.
  destruct (Z.ltb_spec i (zlen (prefix e))) as [L|L]; unfold zlen in *.
  - symmetry. apply nth_error_app1. lia.
  - rewrite nth_error_app2 by lia. f_equal. lia.
Qed.
Lemma Split_front_ok e : Split_front e = hd_error (Split_string e).
Proof. unfold Split_front, Split_string. destruct (prefix e); reflexivity. Qed.
Lemma Split_back_ok e : Split_back e = hd_error (rev (Split_string e)).
Proof.
  unfold Split_back, Split_string. rewrite rev_app_distr. destruct (suffix e) as [|x s]; [reflexivity|].
  assert (N : rev (x :: s) <> []) by (intros E; apply (f_equal (@length Z)) in E; rewrite rev_length in E; discriminate).
  destruct (rev (x :: s)); [contradiction|reflexivity].
Qed.
Lemma Split_remove_prefix_ok e n : 0 <= n <= zlen (Split_string e) ->
  exists e', Split_remove_prefix e n = Some e' /\ Split_string e' = zdrop n (Split_string e).
Proof.
  unfold Split_remove_prefix, Split_size, Split_string. rewrite zlen_app. intros H. rewrite guard_true by lia.
  destruct (Z.leb_spec n (zlen (prefix e))) as [L|L]; (eexists; split; [reflexivity|]); cbn [prefix suffix app].
  - rewrite zdrop_app_l by lia. reflexivity.
  - pose proof (zlen_nonneg (prefix e)). rewrite zdrop_app_r by lia. reflexivity.
Qed.
Lemma Split_remove_suffix_ok e n : 0 <= n <= zlen (Split_string e) ->
  exists e', Split_remove_suffix e n = Some e' /\ Split_string e' = ztake (zlen (Split_string e) - n) (Split_string e).
Proof.
  unfold Split_remove_suffix, Split_size, Split_string. rewrite zlen_app. intros H. rewrite guard_true by lia.
  pose proof (zlen_nonneg (prefix e)) as N. destruct (Z.leb_spec n (zlen (suffix e))) as [L|L]; (eexists; split; [reflexivity|]); cbn [prefix suffix app].
  - rewrite ztake_app_r by lia. f_equal. f_equal. lia.
  - rewrite app_nil_r, ztake_app_l by lia. f_equal. lia.
Qed.
