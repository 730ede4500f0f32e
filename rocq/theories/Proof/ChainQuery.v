(** Reading and comparing Chains. *)
From Verif Require Import Base.Bytes Model.BufferSizer Model.Chain Model.ChainWorld Spec.ChainSpec Proof.ChainHeap Proof.ChainSteps Proof.ChainAppend Proof.ChainRemove.

Lemma CopyTo_content h c : CopyTo h c = content h c.
Proof.
  unfold CopyTo, content. destruct (cblocks c) as [|b0 bs]; [reflexivity|]. generalize (b0 :: bs). intros l.
  assert (G : forall l acc, fold_left (fun dest b => dest ++ data h b) l acc = acc ++ flat h l).
  { clear. induction l as [|b l IH]; intros acc; cbn [fold_left]; [unfold flat; cbn; now rewrite app_nil_r|]. rewrite IH, flat_cons, app_assoc. reflexivity. }
  apply (G l []).
Qed.
Lemma views_content h c : Ok h c -> concat (views h c) = content h c.
Proof.
  intros [SZ SH CK]. unfold views, content in *. destruct (cblocks c) as [|b bs] eqn:EB; [|reflexivity].
  destruct (Z.eqb_spec (csize c) 0) as [Z0|Z0]; [|cbn [concat]; now rewrite app_nil_r]. cbn [concat]. rewrite Z0 in SZ. destruct (short_data c); [reflexivity|]. rewrite zlen_cons in SZ. pose proof (zlen_nonneg l). lia.
Qed.

(** Comparison *)
Lemma lex_app u : forall v s t, zlen u = zlen v -> lexicographic (u ++ s) (v ++ t) = match memcmp u v with Eq => lexicographic s t | other => other end.
Proof.
  induction u as [|x u IH]; intros [|y v] s t L; rewrite ?zlen_cons in L; cbn [app memcmp lexicographic]; try reflexivity.
  - change (zlen (@nil Z)) with 0 in L. pose proof (zlen_nonneg v). lia.
  - change (zlen (@nil Z)) with 0 in L. pose proof (zlen_nonneg u). lia.
  - destruct (x ?= y); [apply IH; lia|reflexivity|reflexivity].
Qed.
Lemma existsb_nonempty a : existsb nonempty a = match concat a with [] => false | _ => true end.
Proof.
  induction a as [|x a IH]; [reflexivity|]. cbn [existsb concat]. rewrite IH. unfold nonempty. destruct x as [|y x]; [reflexivity|].
  rewrite zlen_cons. pose proof (zlen_nonneg x). destruct (Z.eqb_spec (1 + zlen x) 0); [lia|]. reflexivity.
Qed.
Lemma lex_nil_l b : lexicographic [] b = match b with [] => Eq | _ => Lt end. Proof. now destruct b. Qed.
Lemma lex_nil_r b : lexicographic b [] = match b with [] => Eq | _ => Gt end. Proof. now destruct b. Qed.
Lemma existsb_concat a : (if existsb nonempty a then Lt else Eq) = lexicographic [] (concat a).
Proof. rewrite existsb_nonempty, lex_nil_l. now destruct (concat a). Qed.
Lemma existsb_concat_r a : (if existsb nonempty a then Gt else Eq) = lexicographic (concat a) [].
Proof. rewrite existsb_nonempty, lex_nil_r. now destruct (concat a). Qed.
Lemma zdrop_0 {A} (l : list A) : zdrop 0 l = l. Proof. apply zdrop_nonpos. lia. Qed.
Lemma zdrop_app_le {A} (a b : list A) n : 0 <= n <= zlen a -> zdrop n (a ++ b) = zdrop n a ++ b.
Proof. intros L. apply zdrop_app_l. lia. Qed.

Definition hd_len (a : list (list Z)) : Z := match a with [] => 0 | x :: _ => zlen x end.
Definition pos_ok (a : list (list Z)) (i : Z) : Prop := i = 0 \/ 0 < i < hd_len a.

Lemma rest_step (x : list Z) a i n : 0 <= i -> 0 <= n -> i + n <= zlen x ->
  let '(a', i') := if i + n =? zlen x then (a, 0) else (x :: a, i + n) in
  zdrop i (x ++ concat a) = ztake n (zdrop i x) ++ zdrop i' (concat a') /\ pos_ok a' i'.
Proof.
  intros I0 N0 LE. rewrite zdrop_app_le by lia. destruct (Z.eqb_spec (i + n) (zlen x)) as [EQ|NE].
  - split; [|left; reflexivity]. rewrite zdrop_0. f_equal. symmetry. apply ztake_all. rewrite zlen_zdrop. lia.
  - split; [|unfold pos_ok; cbn [hd_len]; lia]. cbn [concat]. rewrite (zdrop_app_le x) by lia. rewrite app_assoc. f_equal. rewrite <- (ztake_zdrop n (zdrop i x)) at 1. f_equal. rewrite zdrop_zdrop by lia. f_equal. lia.
Qed.
Lemma rest_nonempty a i : pos_ok a i -> existsb nonempty a = match zdrop i (concat a) with [] => false | _ => true end.
Proof.
  intros [->|P]; [rewrite zdrop_0; apply existsb_nonempty|]. destruct a as [|x a]; cbn [hd_len] in P; [lia|].
  cbn [existsb concat]. unfold nonempty at 1. destruct (Z.eqb_spec (zlen x) 0); [lia|]. cbn [negb orb].
  destruct (zdrop i (x ++ concat a)) eqn:D; [|reflexivity]. exfalso. apply (f_equal (@zlen Z)) in D. rewrite zlen_zdrop, zlen_app in D. change (zlen (@nil Z)) with 0 in D. pose proof (zlen_nonneg (concat a)). lia.
Qed.

Lemma compare_loop_ok fuel : forall a b i j, (length a + length b <= fuel)%nat -> pos_ok a i -> pos_ok b j ->
  compare_loop fuel a b i j = Some (lexicographic (zdrop i (concat a)) (zdrop j (concat b))).
Proof.
  assert (NA : forall fuel b i j, pos_ok [] i -> pos_ok b j -> compare_loop fuel [] b i j = Some (lexicographic (zdrop i (concat [])) (zdrop j (concat b)))).
  { intros fuel0 b i j IB JB. destruct IB as [->|IB]; [|cbn [hd_len] in IB; lia]. destruct fuel0; cbn [compare_loop]; rewrite (rest_nonempty _ _ JB); cbn [concat]; rewrite zdrop_0, lex_nil_l; now destruct (zdrop j (concat b)). }
  assert (NB : forall fuel x a i j, pos_ok (x :: a) i -> pos_ok [] j -> compare_loop fuel (x :: a) [] i j = Some (lexicographic (zdrop i (concat (x :: a))) (zdrop j (concat [])))).
  { intros fuel0 x a i j IB JB. destruct JB as [->|JB]; [|cbn [hd_len] in JB; lia].
    replace (compare_loop fuel0 (x :: a) [] i 0) with (Some (if existsb nonempty (x :: a) then Gt else Eq)) by (destruct fuel0; reflexivity).
    rewrite (rest_nonempty _ _ IB). cbn [concat]. rewrite zdrop_0, lex_nil_r. now destruct (zdrop i (x ++ concat a)). }
  induction fuel as [|fuel IH]; intros a b i j FU IB JB; (destruct a as [|x a]; [now apply NA|]); (destruct b as [|y b]; [now apply NB|]).
  - cbn [length] in FU. lia.
  - cbn [compare_loop]. cbn [length] in FU. cbn [concat].
    assert (I0 : 0 <= i <= zlen x) by (pose proof (zlen_nonneg x); destruct IB as [->|IB]; cbn [hd_len] in *; lia).
    assert (J0 : 0 <= j <= zlen y) by (pose proof (zlen_nonneg y); destruct JB as [->|JB]; cbn [hd_len] in *; lia).
    set (n := Z.min (zlen x - i) (zlen y - j)). assert (N : 0 <= n /\ i + n <= zlen x /\ j + n <= zlen y /\ (i + n = zlen x \/ j + n = zlen y)) by lia. clearbody n.
    pose proof (rest_step x a i n ltac:(lia) ltac:(lia) ltac:(lia)) as RA. pose proof (rest_step y b j n ltac:(lia) ltac:(lia) ltac:(lia)) as RB.
    assert (LA : zlen (ztake n (zdrop i x)) = zlen (ztake n (zdrop j y))) by (rewrite !zlen_ztake, !zlen_zdrop; lia).
    destruct (Z.eqb_spec (i + n) (zlen x)) as [EA|EA]; destruct (Z.eqb_spec (j + n) (zlen y)) as [EB|EB]; try lia; destruct RA as (RA & PA), RB as (RB & PB); rewrite RA, RB, (lex_app _ _ _ _ LA);
      (destruct (memcmp (ztake n (zdrop i x)) (ztake n (zdrop j y))); [|reflexivity|reflexivity]); apply IH; try assumption; cbn [length]; lia.
Qed.
Lemma Compare_ok h a b : Ok h a -> Ok h b -> Compare h a b = Some (lexicographic (content h a) (content h b)).
Proof. intros OA OB. unfold Compare. rewrite compare_loop_ok; [|lia|now left|now left]. rewrite !zdrop_0, !views_content by assumption. reflexivity. Qed.

Lemma zlen_nil_inv {A} (l : list A) : zlen l = 0 -> l = [].
Proof. destruct l as [|x l]; [reflexivity|]. rewrite zlen_cons. pose proof (zlen_nonneg l). lia. Qed.
Lemma compare_str_loop_ok a : forall b j, 0 <= j <= zlen b -> compare_str_loop a b j = Some (lexicographic (concat a) (zdrop j b)).
Proof.
  induction a as [|x a IH]; intros b j JB; cbn [compare_str_loop].
  - cbn [concat]. rewrite lex_nil_l. destruct (Z.eqb_spec j (zlen b)) as [->|NE]; [rewrite zdrop_all by lia; reflexivity|].
    destruct (zdrop j b) eqn:D; [|reflexivity]. apply (f_equal (@zlen Z)) in D. rewrite zlen_zdrop in D. change (zlen (@nil Z)) with 0 in D. lia.
  - destruct (Z.eqb_spec j (zlen b)) as [->|NE].
    { rewrite (zdrop_all (zlen b) b) by lia. rewrite existsb_nonempty, lex_nil_r. now destruct (concat (x :: a)). }
    cbn [concat]. pose proof (zlen_nonneg x). set (n := Z.min (zlen x) (zlen b - j)). assert (N : 0 <= n <= zlen x /\ n <= zlen b - j /\ (n = zlen x \/ n = zlen b - j)) by lia. clearbody n.
    assert (LX : zlen (ztake n x) = zlen (ztake n (zdrop j b))) by (rewrite !zlen_ztake, zlen_zdrop; lia).
    assert (EL : lexicographic (x ++ concat a) (zdrop j b) = match memcmp (ztake n x) (ztake n (zdrop j b)) with Eq => lexicographic (zdrop n x ++ concat a) (zdrop n (zdrop j b)) | other => other end).
    { rewrite <- (lex_app _ _ _ _ LX), app_assoc, !ztake_zdrop. reflexivity. }
    rewrite EL. clear EL.
    destruct (memcmp (ztake n x) (ztake n (zdrop j b))); [|reflexivity|reflexivity].
    destruct (Z.eqb_spec n (zlen x)) as [EX|NX].
    + rewrite IH by lia. subst n. rewrite (zdrop_all (zlen x) x) by lia. cbn [app]. rewrite zdrop_zdrop by lia. do 3 f_equal. lia.
    + destruct N as (N1 & N2 & [N3|N3]); [lia|]. rewrite (zdrop_all n (zdrop j b)) by (rewrite zlen_zdrop; lia). rewrite existsb_nonempty, lex_nil_r. cbn [concat].
      destruct (x ++ concat a) eqn:XA; [apply (f_equal (@zlen Z)) in XA; rewrite zlen_app in XA; change (zlen (@nil Z)) with 0 in XA; pose proof (zlen_nonneg (concat a)); lia|].
      destruct (zdrop n x ++ concat a) eqn:XB; [apply (f_equal (@zlen Z)) in XB; rewrite zlen_app, zlen_zdrop in XB; change (zlen (@nil Z)) with 0 in XB; pose proof (zlen_nonneg (concat a)); lia|reflexivity].
Qed.
Lemma CompareStr_ok h a b : Ok h a -> CompareStr h a b = Some (lexicographic (content h a) b).
Proof. intros OA. unfold CompareStr. rewrite compare_str_loop_ok by (pose proof (zlen_nonneg b); lia). rewrite zdrop_0, views_content by assumption. reflexivity. Qed.
Lemma lex_eq a : forall b, lexicographic a b = Eq <-> a = b.
Proof.
  induction a as [|x a IH]; intros [|y b]; cbn [lexicographic]; try easy. destruct (Z.compare_spec x y) as [->|L|L].
  - rewrite IH. split; [now intros ->|now intros [= ->]].
  - split; [easy|intros [= -> _]; lia].
  - split; [easy|intros [= -> _]; lia].
Qed.
Lemma Equal_ok h a b : Ok h a -> Ok h b -> exists r, Equal h a b = Some r /\ (r = true <-> content h a = content h b).
Proof.
  intros OA OB. unfold Equal. rewrite (ok_size _ _ OA), (ok_size _ _ OB), (Compare_ok h a b OA OB). destruct (Z.eqb_spec (zlen (content h a)) (zlen (content h b))) as [EQ|NE]; cbn [option_map].
  - eexists. split; [reflexivity|]. rewrite <- lex_eq. now destruct (lexicographic _ _).
  - exists false. split; [reflexivity|]. split; [easy|]. intros Q. now rewrite Q in NE.
Qed.
Lemma EqualStr_ok h a b : Ok h a -> exists r, EqualStr h a b = Some r /\ (r = true <-> content h a = b).
Proof.
  intros OA. unfold EqualStr. rewrite (ok_size _ _ OA), (CompareStr_ok h a b OA). destruct (Z.eqb_spec (zlen (content h a)) (zlen b)) as [EQ|NE]; cbn [option_map].
  - eexists. split; [reflexivity|]. rewrite <- lex_eq. now destruct (lexicographic _ _).
  - exists false. split; [reflexivity|]. split; [easy|]. intros Q. now rewrite Q in NE.
Qed.

(** Indexing *)
Lemma u64_diff o p : 0 <= o < 2 ^ 64 -> 0 <= p < 2 ^ 64 -> u64 (u64 (o + p) - o) = p.
Proof.
  intros O P. unfold u64 in *. rewrite Zminus_mod_idemp_l. replace (o + p - o) with p by lia. apply Z.mod_small. lia.
Qed.
Lemma nth_offs h bs : forall o n, 0 <= o < 2 ^ 64 -> (n < length bs)%nat -> nth n (offs_from h o bs) 0 = u64 (o + zlen (flat h (firstn n bs))).
Proof.
  induction bs as [|b bs IH]; intros o n OB L; [cbn [length] in L; lia|]. destruct n as [|n]; cbn [offs_from nth firstn].
  - change (flat h []) with (@nil Z). change (zlen (@nil Z)) with 0. rewrite Z.add_0_r. symmetry. now apply u64_id.
  - rewrite IH; [|apply u64_range|cbn [length] in L; lia]. rewrite u64_add, flat_cons, zlen_app. f_equal. unfold size. lia.
Qed.
Lemma upper_bound_ok h o i : 0 <= o < 2 ^ 64 -> forall rest b p, 0 <= p <= i -> i < p + zlen (flat h (b :: rest)) -> p + zlen (flat h (b :: rest)) < 2 ^ 64 ->
  let m := upper_bound (fun x => i <? u64 (x - o)) (offs_from h (u64 (o + (p + size h b))) rest) in
  0 <= m <= zlen rest /\ p + zlen (flat h (firstn (Z.to_nat m) (b :: rest))) <= i < p + zlen (flat h (firstn (S (Z.to_nat m)) (b :: rest))).
Proof.
  intros OB. induction rest as [|b1 rest IH]; intros b p PB LT FI; cbn [offs_from upper_bound]; cbv zeta.
  - change (zlen (@nil Z)) with 0. split; [lia|]. cbn [Z.to_nat firstn]. change (flat h []) with (@nil Z). change (zlen (@nil Z)) with 0. rewrite flat_one in *. lia.
  - rewrite flat_cons, zlen_app in LT, FI. pose proof (zlen_nonneg (flat h (b1 :: rest))) as Z1. pose proof (zlen_nonneg rest). rewrite zlen_cons.
    assert (SB : size h b = zlen (data h b)) by reflexivity. pose proof (zlen_nonneg (data h b)) as Z2.
    rewrite u64_diff by lia. destruct (Z.ltb_spec i (p + size h b)) as [L|L].
    + split; [lia|]. cbn [Z.to_nat firstn]. change (flat h []) with (@nil Z). change (zlen (@nil Z)) with 0. rewrite flat_one. lia.
    + specialize (IH b1 (p + size h b) ltac:(lia) ltac:(lia) ltac:(lia)). cbv zeta in IH. rewrite u64_add. replace (o + (p + size h b) + size h b1) with (o + (p + size h b + size h b1)) by lia.
      destruct IH as (M1 & M2). set (m := upper_bound _ _) in *. clearbody m. split; [lia|]. replace (Z.to_nat (1 + m)) with (S (Z.to_nat m)) by lia.
      rewrite (firstn_cons (S (Z.to_nat m)) b). rewrite (firstn_cons (Z.to_nat m) b). rewrite !(flat_cons h b), !zlen_app. lia.
Qed.
Lemma concat_views h bs n : concat (firstn n (map (data h) bs)) = flat h (firstn n bs).
Proof. unfold flat. now rewrite firstn_map. Qed.
Lemma flat_step h bs n : (n < length bs)%nat -> flat h (firstn (S n) bs) = flat h (firstn n bs) ++ data h (nth n bs 0).
Proof.
  revert n. induction bs as [|b bs IH]; intros n L; [cbn [length] in L; lia|]. destruct n as [|n]; [cbn [firstn nth]; now rewrite flat_one|].
  cbn [length] in L. rewrite (firstn_cons (S n)), (firstn_cons n), !flat_cons. cbn [nth]. rewrite (IH n ltac:(lia)). now rewrite app_assoc.
Qed.
Lemma views_nth h c n : cblocks c <> [] -> (n < length (cblocks c))%nat -> nth n (views h c) [] = data h (nth n (cblocks c) 0).
Proof. intros N L. unfold views. destruct (cblocks c) as [|b bs]; [easy|]. rewrite (nth_indep _ [] (data h 0)) by (rewrite map_length; exact L). apply map_nth. Qed.

Lemma located_blocks h c i k j : cblocks c <> [] -> 0 <= k < count c -> zlen (flat h (firstn (Z.to_nat k) (cblocks c))) <= i < zlen (flat h (firstn (S (Z.to_nat k)) (cblocks c))) ->
  j = i - zlen (flat h (firstn (Z.to_nat k) (cblocks c))) -> located (views h c) i k j.
Proof.
  intros N KB IB ->. unfold count in KB. assert (KL : (Z.to_nat k < length (cblocks c))%nat) by (unfold zlen in KB; lia).
  rewrite flat_step, zlen_app in IB by exact KL. unfold located. rewrite views_nth by assumption.
  assert (VE : views h c = map (data h) (cblocks c)) by (unfold views; destruct (cblocks c); [easy|reflexivity]). rewrite VE, concat_views.
  split; [unfold zlen in *; rewrite map_length; lia|]. split; [lia|]. lia.
Qed.
Lemma BlockAndCharIndex_ok h c i : Ok h c -> csize c <= SIZE_MAX -> 0 <= i < csize c -> exists k j, BlockAndCharIndex h c i = Some (k, j) /\ located (views h c) i k j.
Proof.
  intros OK FI IB. pose proof OK as [SZ SH CK]. unfold BlockAndCharIndex, check. destruct (Z.leb_spec i (csize c)); [|lia]. destruct (Z.eqb_spec i (csize c)); [lia|].
  destruct (cblocks c) as [|b0 rest] eqn:EB.
  - exists 0, i. split; [reflexivity|]. unfold located, views. rewrite EB. destruct (Z.eqb_spec (csize c) 0); [lia|]. rewrite (content_short _ _ EB) in SZ. cbn [Z.to_nat nth firstn concat].
    change (zlen [short_data c]) with 1. change (zlen (@nil Z)) with 0. lia.
  - assert (N : cblocks c <> []) by now rewrite EB. rewrite (content_flat _ _ N), EB in SZ. assert (SB : size h b0 = zlen (data h b0)) by reflexivity. pose proof (zlen_nonneg (data h b0)).
    assert (LOC : forall k, 0 <= k < count c -> zlen (flat h (firstn (Z.to_nat k) (b0 :: rest))) <= i < zlen (flat h (firstn (S (Z.to_nat k)) (b0 :: rest))) -> located (views h c) i k (i - zlen (flat h (firstn (Z.to_nat k) (b0 :: rest))))).
    { intros k KB Q. rewrite <- EB in Q |- *. now apply located_blocks. }
    assert (CN : count c = 1 + zlen rest) by (unfold count; now rewrite EB, zlen_cons). pose proof (zlen_nonneg rest).
    unfold Cok in CK. destruct (coffs c) as [l|].
    + destruct CK as (o & OB & LO). rewrite EB in LO. subst l. cbn [offs_from hd tl].
      pose proof (upper_bound_ok h o i OB rest b0 0) as U. cbv zeta in U. rewrite Z.add_0_l in U. specialize (U ltac:(lia) ltac:(lia)). rewrite Z.add_0_l in U. unfold SIZE_MAX in FI. specialize (U ltac:(lia)).
      set (m := upper_bound _ _) in *. clearbody m. destruct U as (U1 & U2). replace (1 + m - 1) with m by lia. exists m.
      change (o :: offs_from h (u64 (o + size h b0)) rest) with (offs_from h o (b0 :: rest)). rewrite nth_offs; [|exact OB|cbn [length]; unfold zlen in U1; lia].
      pose proof (zlen_nonneg (flat h (firstn (Z.to_nat m) (b0 :: rest)))). rewrite !Z.add_0_l in U2. rewrite u64_diff by lia. rewrite u64_id by lia.
      eexists. split; [reflexivity|]. apply LOC; [lia|exact U2].
    + destruct (Z.leb_spec (size h b0) i) as [L|L].
      * rewrite flat_cons, zlen_app in SZ. destruct rest as [|b1 rest]; [change (flat h []) with (@nil Z) in SZ; change (zlen (@nil Z)) with 0 in SZ; lia|].
        destruct rest as [|b2 rest]; [|rewrite !zlen_cons in CN; pose proof (zlen_nonneg rest); lia]. rewrite flat_one in SZ. assert (SB1 : size h b1 = zlen (data h b1)) by reflexivity.
        unfold check. destruct (Z.ltb_spec (i - size h b0) (size h b1)); [|lia]. exists 1, (i - size h b0). split; [reflexivity|].
        specialize (LOC 1). change (Z.to_nat 1) with 1%nat in LOC. cbn [firstn] in LOC. rewrite flat_one, flat_cons, zlen_app, flat_one in LOC. rewrite zlen_cons in CN. change (zlen (@nil Z)) with 0 in CN. rewrite SB. apply LOC; lia.
      * exists 0, i. split; [reflexivity|]. specialize (LOC 0). cbn [Z.to_nat firstn] in LOC. change (flat h []) with (@nil Z) in LOC. change (zlen (@nil Z)) with 0 in LOC. rewrite Z.sub_0_r, flat_one in LOC. apply LOC; lia.
Qed.
Lemma BlockAndCharIndex_end h c : BlockAndCharIndex h c (csize c) = Some (zlen (views h c), 0).
Proof. unfold BlockAndCharIndex, check. destruct (Z.leb_spec (csize c) (csize c)); [|lia]. now rewrite Z.eqb_refl. Qed.
Lemma CharIndexInChain_ok h c k : Ok h c -> csize c <= SIZE_MAX -> 0 <= k <= zlen (views h c) -> CharIndexInChain h c k = Some (zlen (concat (firstn (Z.to_nat k) (views h c)))).
Proof.
  intros OK FI KB. pose proof OK as [SZ SH CK]. unfold CharIndexInChain, views in *. destruct (cblocks c) as [|b0 rest] eqn:EB.
  - rewrite (content_short _ _ EB) in SZ. destruct (Z.eqb_spec (csize c) 0) as [Z0|Z0]; cbn [orb].
    + rewrite firstn_nil. cbn [concat]. now rewrite Z0.
    + change (zlen [short_data c]) with 1 in KB. destruct (Z.eqb_spec k 0) as [->|K0]; cbn [negb]; [reflexivity|]. replace k with 1 by lia. change (Z.to_nat 1) with 1%nat. cbn [firstn concat]. rewrite app_nil_r. now rewrite SZ at 1.
  - assert (N : cblocks c <> []) by now rewrite EB. rewrite (content_flat _ _ N), EB in SZ. rewrite concat_views.
    assert (KN : 0 <= k <= 1 + zlen rest). { unfold zlen in *. rewrite map_length in KB. cbn [length] in KB. lia. }
    assert (CN : count c = 1 + zlen rest) by (unfold count; now rewrite EB, zlen_cons). pose proof (zlen_nonneg rest).
    destruct (Z.eqb_spec k (count c)) as [KE|KE].
    + rewrite firstn_all2 by (unfold zlen in *; cbn [length]; lia). now rewrite SZ.
    + assert (KL : (Z.to_nat k < length (b0 :: rest))%nat) by (unfold zlen in *; cbn [length]; lia).
      unfold Cok in CK. destruct (coffs c) as [l|].
      * destruct CK as (o & OB & LO). rewrite EB in LO. subst l. rewrite nth_offs by assumption. cbn [offs_from hd]. f_equal. apply u64_diff; [exact OB|].
        assert (LE : zlen (flat h (firstn (Z.to_nat k) (b0 :: rest))) <= zlen (flat h (b0 :: rest))).
        { rewrite <- (firstn_skipn (Z.to_nat k) (b0 :: rest)) at 2. rewrite flat_app, zlen_app. pose proof (zlen_nonneg (flat h (skipn (Z.to_nat k) (b0 :: rest)))). lia. }
        pose proof (zlen_nonneg (flat h (firstn (Z.to_nat k) (b0 :: rest)))). unfold SIZE_MAX in FI. lia.
      * destruct (Z.eqb_spec k 0) as [->|K0]; [reflexivity|]. destruct (Z.eqb_spec k 1) as [->|K1]; [|lia]. change (Z.to_nat 1) with 1%nat. cbn [firstn]. rewrite flat_one. reflexivity.
Qed.

(** The size of a chain always fits *)
Lemma block_buffer_le h b m fill n h' : Block_AppendBuffer h b m fill = Some (n, h') -> n <= m.
Proof. unfold Block_AppendBuffer, check. destruct (is_mutable h b); [|discriminate]. intros H. injection H. intros. lia. Qed.
Lemma block_pbuffer_le h b m fill n h' : Block_PrependBuffer h b m fill = Some (n, h') -> n <= m.
Proof. unfold Block_PrependBuffer, check. destruct (is_mutable h b); [|discriminate]. intros H. injection H. intros. lia. Qed.
Lemma size_refresh h c n : csize (with_size (RefreshFront h c) n) = n. Proof. reflexivity. Qed.
Definition rsize (r : option (Z * heap * chain)) : Z := match r with Some (_, _, c) => csize c | None => 0 end.
Ltac each_path := repeat match goal with
  | |- None = Some _ -> _ => discriminate
  | |- Some _ = Some _ -> _ => let H := fresh in intros H; apply (f_equal rsize) in H; cbv beta iota delta [rsize] in H; cbn [with_size csize] in H;
      repeat match goal with H : Block_AppendBuffer _ _ _ _ = Some _ |- _ => apply block_buffer_le in H | H : Block_PrependBuffer _ _ _ _ = Some _ |- _ => apply block_pbuffer_le in H | H : (_ <=? _) = true |- _ => apply Z.leb_le in H end;
      unfold kMaxShortDataSize, SIZE_MAX in *; lia
  | |- context [match ?x with _ => _ end] => destruct x eqn:?
  end.
Lemma AppendBuffer_size E h c mn rec mx opt fill n h' c' : csize c <= SIZE_MAX -> AppendBuffer E h c mn rec mx opt fill = Some (n, h', c') -> csize c' <= SIZE_MAX.
Proof. intros FI. unfold AppendBuffer, check. cbv zeta. each_path. Qed.
Lemma PrependBuffer_size E h c mn rec mx opt fill n h' c' : csize c <= SIZE_MAX -> PrependBuffer E h c mn rec mx opt fill = Some (n, h', c') -> csize c' <= SIZE_MAX.
Proof. intros FI. unfold PrependBuffer, check. cbv zeta. each_path. Qed.
