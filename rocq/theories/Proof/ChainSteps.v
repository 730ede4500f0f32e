(** Steps of riegeli/base/chain.cc: writing to a block, block pointers and block offsets. *)
From Verif Require Import Base.Bytes Model.BufferSizer Model.Chain Proof.ChainHeap.

Record env_ok (E : env) : Prop := {
  env_off : 0 <= offset E;
  env_cap : forall n m, 0 < m <= kMaxCapacity -> m <= granted E n m <= kMaxCapacity;
  env_waste : forall n m, 0 < m <= kMaxCapacity -> offset E + granted E n m <= 2 * m + kDefaultMinBlockSize }.

(** a block to which bytes can be appended (prepended) until its capacity [k] is full *)
Definition AB (h : heap) (b k : Z) : Prop := cap (blk h b) = Some k /\ rc (blk h b) = 1 /\ sb (blk h b) = 0.
Definition PB (h : heap) (b k : Z) : Prop := cap (blk h b) = Some k /\ rc (blk h b) = 1 /\ (size h b = 0 \/ sb (blk h b) + size h b = k).

Lemma size_nonneg h b : 0 <= size h b. Proof. apply zlen_nonneg. Qed.
Lemma mutable_of h b k : cap (blk h b) = Some k -> rc (blk h b) = 1 -> is_mutable h b = true.
Proof. unfold is_mutable. intros -> ->. reflexivity. Qed.
Lemma is_empty_spec h b : is_empty h b = true -> data h b = [].
Proof. unfold is_empty, size. intros H. apply Z.eqb_eq in H. destruct (data h b); [reflexivity|]. rewrite zlen_cons in H. pose proof (zlen_nonneg l). lia. Qed.
Lemma is_empty_false h b : is_empty h b = false -> 0 < size h b.
Proof. unfold is_empty. intros H. apply Z.eqb_neq in H. pose proof (size_nonneg h b). lia. Qed.

Section S.
Context (E : env) (EO : env_ok E).

Lemma new_step h R m : Inv h R -> 0 < m <= kMaxCapacity -> exists n h' k, NewInternal E h m = Some (n, h') /\ Inv h' (fun x => R x + one n x) /\ (forall x, x <> n -> data h' x = data h x) /\ R n = 0 /\
  n = nxt h /\ data h' n = [] /\ m <= k <= kMaxCapacity /\ AB h' n k /\ PB h' n k /\ k = granted E n m.
Proof.
  intros I M. pose proof (env_cap E EO (nxt h) m M) as G. unfold NewInternal, check.
  destruct (Z.ltb_spec 0 m); [|lia]. destruct (Z.leb_spec (granted E (nxt h) m) kMaxCapacity); [|lia].
  eexists _, _, (granted E (nxt h) m). split; [reflexivity|]. split; [|split; [|split; [|split; [reflexivity|split; [|split; [lia|]]]]]].
  - apply Inv_alloc; [assumption|reflexivity| |reflexivity]. unfold block_ok. cbn [cap sb dat]. change (zlen (@nil Z)) with 0. lia.
  - intros x N. unfold data. cbn [blk]. now rewrite upd_other.
  - destruct (Z.eq_dec (R (nxt h)) 0); [assumption|]. pose proof (inv_pos _ _ I (nxt h)). exfalso. eapply (fresh_R h R I (nxt h)); [lia|reflexivity].
  - unfold data. cbn [blk]. now rewrite upd_same.
  - unfold AB, PB, size, data. cbn [blk]. rewrite upd_same. cbn [cap rc sb dat]. split; [auto|]. split; [|reflexivity]. split; [reflexivity|]. split; [reflexivity|]. left. reflexivity.
Qed.

Lemma write_step h R b k s d : Inv h R -> 0 < R b -> cap (blk h b) = Some k -> rc (blk h b) = 1 -> 0 <= s -> s + zlen d <= k ->
  let h' := set_blk h b (with_dat (blk h b) s d) in
  Inv h' R /\ data h' b = d /\ (forall x, x <> b -> data h' x = data h x) /\ cap (blk h' b) = Some k /\ rc (blk h' b) = 1 /\ sb (blk h' b) = s.
Proof.
  intros I P C R1 S0 SK h'. destruct (inv_live _ _ _ I P) as (_ & _ & K). unfold block_ok in K. rewrite C in K.
  split; [|split; [|split]].
  - apply Inv_set; auto; [now apply (mutable_of _ _ k)|]. unfold block_ok. cbn [with_dat cap sb dat]. rewrite C. lia.
  - unfold h'. now rewrite data_set_same.
  - intros x N. unfold h'. now rewrite data_set_other.
  - unfold h', set_blk. cbn [blk]. rewrite upd_same. cbn [with_dat cap rc sb]. auto.
Qed.

Lemma explicit_step h R b k src n : Inv h R -> 0 < R b -> AB h b k -> zlen src <= n -> size h b + n <= k ->
  exists h', Block_AppendExplicit h b src n = Some h' /\ Inv h' R /\ AB h' b k /\ data h' b = data h b ++ src /\ (forall x, x <> b -> data h' x = data h x).
Proof.
  intros I P (C & R1 & S0) L F. pose proof (size_nonneg h b). pose proof (zlen_nonneg src). unfold Block_AppendExplicit, check.
  destruct (Z.leb_spec (zlen src) n); [|lia].
  replace (can_append h b n) with true.
  2:{ symmetry. unfold can_append. rewrite (mutable_of _ _ _ C R1). unfold space_after, capacity. rewrite C, S0. cbn [andb]. apply Z.leb_le. destruct (is_empty h b); lia. }
  unfold capacity. rewrite C, S0. destruct (Z.leb_spec (0 + size h b + n) k); [|lia].
  eexists. split; [reflexivity|]. destruct (write_step h R b k 0 (data h b ++ src) I P C R1) as (A1 & A2 & A3 & A4 & A5 & A6); [lia|rewrite zlen_app; fold (size h b); lia|].
  unfold AB. auto.
Qed.
Lemma append_step h R b src : Inv h R -> 0 < R b -> can_append h b (zlen src) = true ->
  exists h', Block_Append h b src = Some h' /\ Inv h' R /\ data h' b = data h b ++ src /\ (forall x, x <> b -> data h' x = data h x).
Proof.
  intros I P CA. unfold can_append in CA. apply andb_prop in CA as [M L]. destruct (mutable_unique _ _ _ I P M) as (k & C & R1 & _ & _).
  destruct (inv_live _ _ _ I P) as (_ & _ & K). unfold block_ok in K. rewrite C in K. fold (data h b) in K. fold (size h b) in K. pose proof (size_nonneg h b). pose proof (zlen_nonneg src).
  apply Z.leb_le in L. unfold space_after, capacity in L. rewrite C in L. unfold Block_Append. destruct (is_empty h b) eqn:EM.
  - pose proof (is_empty_spec _ _ EM) as D0. assert (S0 : size h b = 0) by (unfold size; now rewrite D0).
    destruct (write_step h R b k 0 (data h b) I P C R1) as (A1 & A2 & A3 & A4 & A5 & A6); [lia|fold (size h b); lia|].
    destruct (explicit_step _ R b k src (zlen src) A1 P) as (h' & B1 & B2 & _ & B4 & B5); [unfold AB; auto|lia|unfold size; rewrite A2; fold (size h b); lia|].
    exists h'. split; [exact B1|]. split; [exact B2|]. split; [rewrite B4, A2; reflexivity|]. intros x N. rewrite B5, A3 by assumption. reflexivity.
  - unfold Block_AppendExplicit, check. rewrite Z.leb_refl. unfold can_append. rewrite M, EM. unfold space_after, capacity. rewrite C.
    destruct (Z.leb_spec (zlen src) (k - sb (blk h b) - size h b)); [|lia]. cbn [andb].
    destruct (Z.leb_spec (sb (blk h b) + size h b + zlen src) k); [|lia].
    eexists. split; [reflexivity|]. destruct (write_step h R b k (sb (blk h b)) (data h b ++ src) I P C R1) as (A1 & A2 & A3 & _); [lia|rewrite zlen_app; fold (size h b); lia|]. auto.
Qed.
Lemma AB_append h R b k src : Inv h R -> 0 < R b -> AB h b k -> size h b + zlen src <= k ->
  exists h', Block_Append h b src = Some h' /\ Inv h' R /\ AB h' b k /\ data h' b = data h b ++ src /\ (forall x, x <> b -> data h' x = data h x).
Proof.
  intros I P AB0 F. pose proof AB0 as (C & R1 & S0). pose proof (size_nonneg h b). pose proof (zlen_nonneg src). unfold Block_Append. destruct (is_empty h b) eqn:EM.
  - destruct (write_step h R b k 0 (data h b) I P C R1) as (A1 & A2 & A3 & A4 & A5 & A6); [lia|fold (size h b); lia|].
    destruct (explicit_step _ R b k src (zlen src) A1 P) as (h' & B1 & B2 & B3 & B4 & B5); [unfold AB; auto|lia|unfold size; rewrite A2; fold (size h b); lia|].
    exists h'. split; [exact B1|]. split; [exact B2|]. split; [exact B3|]. split; [rewrite B4, A2; reflexivity|]. intros x N. rewrite B5, A3 by assumption. reflexivity.
  - apply (explicit_step _ R b k src (zlen src)); auto; lia.
Qed.
Lemma prepend_step h R b src : Inv h R -> 0 < R b -> can_prepend h b (zlen src) = true ->
  exists h', Block_Prepend h b src = Some h' /\ Inv h' R /\ data h' b = src ++ data h b /\ (forall x, x <> b -> data h' x = data h x).
Proof.
  intros I P CA. unfold Block_Prepend, check. rewrite CA. unfold can_prepend in CA. apply andb_prop in CA as [M L]. destruct (mutable_unique _ _ _ I P M) as (k & C & R1 & _ & _).
  destruct (inv_live _ _ _ I P) as (_ & _ & K). unfold block_ok in K. rewrite C in K. fold (data h b) in K. fold (size h b) in K. pose proof (size_nonneg h b). pose proof (zlen_nonneg src).
  apply Z.leb_le in L. unfold space_before, capacity in *. rewrite C in *.
  set (s := if is_empty h b then k else sb (blk h b)) in *. destruct (Z.leb_spec 0 (s - zlen src)); [|lia].
  eexists. split; [reflexivity|].
  destruct (write_step h R b k (s - zlen src) (src ++ data h b) I P C R1) as (A1 & A2 & A3 & _); [lia| |auto].
  rewrite zlen_app. fold (size h b). unfold s. destruct (is_empty h b) eqn:EM; [pose proof (is_empty_spec _ _ EM) as D0; assert (S0 : size h b = 0) by (unfold size; now rewrite D0); lia|lia].
Qed.
Lemma PB_prepend h R b k src : Inv h R -> 0 < R b -> PB h b k -> size h b + zlen src <= k ->
  exists h', Block_Prepend h b src = Some h' /\ Inv h' R /\ PB h' b k /\ data h' b = src ++ data h b /\ (forall x, x <> b -> data h' x = data h x).
Proof.
  intros I P (C & R1 & S0) F. pose proof (size_nonneg h b). pose proof (zlen_nonneg src). unfold Block_Prepend, check.
  assert (SE : (if is_empty h b then k else sb (blk h b)) = k - size h b).
  { destruct (is_empty h b) eqn:EM; [pose proof (is_empty_spec _ _ EM) as D0; assert (size h b = 0) by (unfold size; now rewrite D0); lia|]. pose proof (is_empty_false _ _ EM). lia. }
  replace (can_prepend h b (zlen src)) with true.
  2:{ symmetry. unfold can_prepend. rewrite (mutable_of _ _ _ C R1). unfold space_before, capacity. rewrite C, SE. cbn [andb]. apply Z.leb_le. lia. }
  unfold capacity. rewrite C, SE. destruct (Z.leb_spec 0 (k - size h b - zlen src)); [|lia].
  eexists. split; [reflexivity|]. destruct (write_step h R b k (k - size h b - zlen src) (src ++ data h b) I P C R1) as (A1 & A2 & A3 & A4 & A5 & A6); [lia|rewrite zlen_app; fold (size h b); lia|].
  split; [exact A1|]. split; [|auto]. unfold PB. split; [exact A4|]. split; [exact A5|]. right. rewrite A6. unfold size at 2. rewrite A2, zlen_app. fold (size h b). lia.
Qed.
Lemma copy_step h R b : Inv h R -> 0 < R b -> 0 < size h b <= kMaxCapacity -> exists n h', Block_Copy E h b = Some (n, h') /\ Inv h' (fun x => R x + one n x) /\ R n = 0 /\ (forall x, x <> n -> data h' x = data h x) /\ data h' n = data h b.
Proof.
  intros I P S0. unfold Block_Copy. destruct (new_step h R (size h b) I S0) as (n & h1 & k & E1 & I1 & D1 & RN & _ & DN & KB & AB1 & _ & KG). rewrite E1.
  assert (NB : b <> n) by (intros ->; lia).
  pose proof (env_waste E EO n (size h b) S0) as W.
  destruct (AB_append h1 (fun x => R x + one n x) n k (data h1 b) I1) as (h2 & E2 & I2 & AB2 & D2 & D2').
  - rewrite one_same. lia.
  - exact AB1.
  - unfold size at 1. rewrite DN, D1 by assumption. fold (size h b). change (zlen (@nil Z)) with 0. lia.
  - rewrite E2. replace (wasteful E h2 n 0) with false.
    + cbn [negb check]. eexists _, _. split; [reflexivity|]. split; [exact I2|]. split; [assumption|]. split; [intros x N; rewrite D2' by assumption; now apply D1|]. rewrite D2, DN, D1 by assumption. reflexivity.
    + symmetry. unfold wasteful. destruct AB2 as (C2 & _). rewrite C2. unfold size. rewrite D2, DN, D1 by assumption. cbn [app]. fold (size h b). unfold Wasteful.
      pose proof (env_off E EO). subst k. destruct (Z.ltb_spec (offset E + granted E n (size h b)) (size h b + 0)); [reflexivity|].
      destruct (Z.leb_spec (offset E + granted E n (size h b) - (size h b + 0)) kDefaultMinBlockSize); [reflexivity|]. apply Z.ltb_ge. lia.
Qed.

(** Block offsets *)
Definition total (h : heap) (bs : list Z) : Z := zlen (concat (map (data h) bs)).
Definition flat (h : heap) (bs : list Z) : list Z := concat (map (data h) bs).
Lemma flat_app h a b : flat h (a ++ b) = flat h a ++ flat h b. Proof. unfold flat. now rewrite map_app, concat_app. Qed.
Lemma flat_cons h a b : flat h (a :: b) = data h a ++ flat h b. Proof. reflexivity. Qed.
Lemma flat_one h a : flat h [a] = data h a. Proof. unfold flat. cbn [map concat]. apply app_nil_r. Qed.
Lemma flat_keep h h' bs : (forall x, In x bs -> data h' x = data h x) -> flat h' bs = flat h bs.
Proof. induction bs as [|b bs IH]; intros K; [reflexivity|]. rewrite !flat_cons. rewrite (K b (or_introl eq_refl)). f_equal. apply IH. intros x HI. apply K. now right. Qed.

Definition offs_ok (h : heap) (bs l : list Z) : Prop := exists o, 0 <= o < 2 ^ 64 /\ l = offs_from h o bs.
Definition Cok (h : heap) (c : chain) : Prop := match coffs c with None => count c <= 2 | Some l => offs_ok h (cblocks c) l end.
Definition CokT (h : heap) (c : chain) : Prop := match coffs c with None => count c <= 2 | Some l => exists o l', l = o :: l' /\ offs_ok h (tl (cblocks c)) l' end.

Lemma u64_range x : 0 <= u64 x < 2 ^ 64. Proof. unfold u64. apply Z.mod_pos_bound. lia. Qed.
Lemma u64_id x : 0 <= x < 2 ^ 64 -> u64 x = x. Proof. unfold u64. apply Z.mod_small. Qed.
Lemma u64_add a b : u64 (u64 a + b) = u64 (a + b).
Proof. unfold u64. apply Z.add_mod_idemp_l. lia. Qed.
Lemma u64_sub_add a s : 0 <= a < 2 ^ 64 -> u64 (u64 (a - s) + s) = a.
Proof. intros R. rewrite u64_add. replace (a - s + s) with a by lia. now apply u64_id. Qed.
Lemma offs_from_length h bs : forall o, length (offs_from h o bs) = length bs.
Proof. induction bs as [|b bs IH]; intros o; cbn [offs_from length]; [reflexivity|]. now rewrite IH. Qed.
Lemma offs_from_app h a : forall o b, 0 <= o < 2 ^ 64 -> offs_from h o (a ++ b) = offs_from h o a ++ offs_from h (u64 (o + zlen (flat h a))) b.
Proof.
  induction a as [|x a IH]; intros o b R; cbn [offs_from app].
  - change (zlen (flat h [])) with 0. rewrite Z.add_0_r, u64_id by assumption. reflexivity.
  - f_equal. rewrite IH by apply u64_range. rewrite flat_cons, zlen_app, u64_add. fold (size h x). do 2 f_equal. f_equal. lia.
Qed.
Lemma offs_from_keep h h' bs : forall o, (forall x, In x bs -> data h' x = data h x) -> offs_from h' o bs = offs_from h o bs.
Proof. induction bs as [|b bs IH]; intros o K; cbn [offs_from]; [reflexivity|]. f_equal. unfold size. rewrite (K b (or_introl eq_refl)). apply IH. intros x HI. apply K. now right. Qed.

Lemma split_last {A} (l : list A) d : l <> [] -> l = removelast l ++ [last l d]. Proof. apply app_removelast_last. Qed.

Lemma Cok_keep_back h h' c : (forall x, In x (removelast (cblocks c)) -> data h' x = data h x) -> Cok h c -> Cok h' c.
Proof.
  intros K. unfold Cok. destruct (coffs c) as [l|]; [|trivial]. intros (o & R & ->). exists o. split; [assumption|].
  destruct (cblocks c) as [|b0 bs0] eqn:EB; [reflexivity|]. rewrite (split_last (b0 :: bs0) 0) by discriminate. rewrite !offs_from_app by assumption.
  rewrite (offs_from_keep h h') by assumption. rewrite (flat_keep h h') by assumption. reflexivity.
Qed.
Lemma In_removelast {A} (x : A) l : In x (removelast l) -> In x l.
Proof. induction l as [|y l IH]; cbn [removelast]; [easy|]. destruct l; [easy|]. intros [->|HI]; [now left|right; auto]. Qed.
Lemma Cok_keep h h' c : (forall x, In x (cblocks c) -> data h' x = data h x) -> Cok h c -> Cok h' c.
Proof. intros K. apply Cok_keep_back. intros x HI. apply K. now apply In_removelast. Qed.
Lemma CokT_keep h h' c : (forall x, In x (tl (cblocks c)) -> data h' x = data h x) -> CokT h c -> CokT h' c.
Proof.
  intros K. unfold CokT. destruct (coffs c) as [l|]; [|trivial]. intros (o & l' & -> & q & R & ->). exists o, (offs_from h q (tl (cblocks c))). split; [reflexivity|]. exists q. split; [assumption|]. symmetry. now apply offs_from_keep.
Qed.
Lemma Cok_tail h c : cblocks c <> [] -> Cok h c -> CokT h c.
Proof.
  unfold Cok, CokT. destruct (coffs c) as [l|]; [|trivial]. destruct (cblocks c) as [|b bs]; [easy|]. intros _ (o & R & ->). cbn [offs_from tl].
  eexists _, _. split; [reflexivity|]. exists (u64 (o + size h b)). split; [apply u64_range|reflexivity].
Qed.
Lemma Cok_size h c s : Cok h c -> Cok h (with_size c s). Proof. trivial. Qed.
Lemma Cok_nil h c : cblocks c = [] -> coffs c = None \/ coffs c = Some [] -> Cok h c.
Proof. unfold Cok, count. intros -> [->| ->]; [change (zlen (@nil Z)) with 0; lia|]. exists 0. split; [lia|reflexivity]. Qed.
Lemma Reserve_ok h c n l : Cok h c -> Reserve h c n = Some l -> offs_ok h (cblocks c) l.
Proof. unfold Cok, Reserve. destruct (coffs c) as [l'|]; [intros H [= <-]; exact H|]. intros _. destruct (2 <? count c + n); [|discriminate]. intros [= <-]. exists 0. split; [lia|reflexivity]. Qed.
Lemma Reserve_none h c n : Reserve h c n = None -> count c + n <= 2.
Proof. unfold Reserve. destruct (coffs c); [discriminate|]. destruct (Z.ltb_spec 2 (count c + n)); [discriminate|]. intros _. lia. Qed.

Lemma next_offset h bs o : 0 <= o < 2 ^ 64 -> bs <> [] -> u64 (last (offs_from h o bs) 0 + size h (last bs 0)) = u64 (o + zlen (flat h bs)).
Proof.
  intros R N. rewrite (split_last bs 0 N). rewrite offs_from_app by assumption. cbn [offs_from]. rewrite !last_last. rewrite flat_app, flat_one, zlen_app, u64_add. fold (size h (last bs 0)). f_equal. lia.
Qed.
Lemma AppendBlocks_blocks share h c bs : cblocks (snd (AppendBlocks share h c bs)) = cblocks c ++ bs.
Proof. unfold AppendBlocks. destruct bs; [now rewrite app_nil_r|reflexivity]. Qed.
Lemma offs_append h c l bs : offs_ok h (cblocks c) l ->
  offs_ok h (cblocks c ++ bs) (l ++ offs_from h (match cblocks c with [] => 0 | _ => u64 (last l 0 + size h (back c)) end) bs).
Proof.
  intros (o & R & ->). destruct (cblocks c) as [|b0 bs0] eqn:EB.
  - exists 0. split; [lia|]. reflexivity.
  - exists o. split; [assumption|]. rewrite offs_from_app by assumption. unfold back. rewrite EB. rewrite next_offset by (assumption || discriminate). reflexivity.
Qed.
Lemma Cok_AppendBlocks share h c bs : Cok h c -> Cok h (snd (AppendBlocks share h c bs)).
Proof.
  intros K. unfold AppendBlocks. destruct bs as [|b bs]; [exact K|]. cbn [snd]. unfold Cok at 1. cbn [with_blocks coffs cblocks].
  destruct (Reserve h c (zlen (b :: bs))) as [l|] eqn:RE.
  - apply offs_append. eapply Reserve_ok; eassumption.
  - apply Reserve_none in RE. unfold count in *. cbn [with_blocks cblocks]. rewrite zlen_app. lia.
Qed.
Lemma Cok_PushBack h c b : Cok h c -> Cok h (PushBack h c b).
Proof.
  intros K. unfold PushBack, Cok at 1. cbn [with_blocks coffs cblocks]. destruct (Reserve h c 1) as [l|] eqn:RE.
  - exact (offs_append h c l [b] (Reserve_ok _ _ _ _ K RE)).
  - apply Reserve_none in RE. unfold count in *. cbn [with_blocks cblocks]. rewrite zlen_app. change (zlen [b]) with 1. lia.
Qed.
Lemma offs_before_spec h bs : forall o, 0 <= o < 2 ^ 64 -> 0 <= fst (offs_before h o bs) < 2 ^ 64 /\ snd (offs_before h o bs) = offs_from h (fst (offs_before h o bs)) bs /\ u64 (fst (offs_before h o bs) + zlen (flat h bs)) = o.
Proof.
  induction bs as [|b bs IH]; intros o R; cbn [offs_before].
  - cbn [fst snd offs_from]. change (zlen (flat h [])) with 0. rewrite Z.add_0_r. split; [assumption|]. split; [reflexivity|]. now apply u64_id.
  - destruct (IH o R) as (A & B & C). destruct (offs_before h o bs) as [q l]. cbn [fst snd] in *. split; [apply u64_range|]. split.
    + cbn [offs_from]. f_equal. rewrite u64_sub_add by assumption. exact B.
    + rewrite flat_cons, zlen_app. fold (size h b). rewrite Z.add_assoc. rewrite <- u64_add. rewrite u64_sub_add by assumption. exact C.
Qed.
Lemma PrependBlocks_blocks share h c bs : cblocks (snd (PrependBlocks share h c bs)) = bs ++ cblocks c.
Proof. unfold PrependBlocks. destruct bs; reflexivity. Qed.
Lemma Cok_PrependBlocks share h c bs : Cok h c -> Cok h (snd (PrependBlocks share h c bs)).
Proof.
  intros K. unfold PrependBlocks. destruct bs as [|b bs]; [exact K|]. cbn [snd]. unfold Cok at 1. cbn [with_blocks coffs cblocks].
  destruct (Reserve h c (zlen (b :: bs))) as [l|] eqn:RE.
  - destruct (Reserve_ok _ _ _ _ K RE) as (o & R & ->). set (bs1 := b :: bs) in *. destruct (cblocks c) as [|b0 bs0] eqn:EB.
    + destruct (offs_before_spec h (removelast bs1) 0) as (A & B & C); [lia|]. rewrite B. exists (fst (offs_before h 0 (removelast bs1))). split; [assumption|].
      change (offs_from h o []) with (@nil Z). rewrite !app_nil_r. rewrite (split_last bs1 0) at 4 by (unfold bs1; discriminate). rewrite offs_from_app by assumption. rewrite C. reflexivity.
    + cbn [offs_from hd]. destruct (offs_before_spec h bs1 o R) as (A & B & C). rewrite B. exists (fst (offs_before h o bs1)). split; [assumption|].
      rewrite offs_from_app by assumption. rewrite C. reflexivity.
  - apply Reserve_none in RE. unfold count in *. cbn [with_blocks cblocks]. change (zlen ((b :: bs) ++ cblocks c) <= 2). rewrite zlen_app. lia.
Qed.
Lemma Cok_PushFront h c b : Cok h c -> Cok h (PushFront h c b).
Proof.
  intros K. unfold PushFront, Cok at 1. cbn [with_blocks coffs cblocks]. destruct (Reserve h c 1) as [l|] eqn:RE.
  - destruct (Reserve_ok _ _ _ _ K RE) as (o & R & ->). destruct (cblocks c) as [|b0 bs0].
    + exists 0. split; [lia|reflexivity].
    + cbn [offs_from hd]. exists (u64 (o - size h b)). split; [apply u64_range|]. cbn [offs_from]. now rewrite u64_sub_add.
  - apply Reserve_none in RE. unfold count in *. cbn [with_blocks cblocks]. rewrite zlen_cons. lia.
Qed.
Lemma zlen_removelast {A} (l : list A) : zlen (removelast l) <= zlen l.
Proof. induction l as [|x l IH]; cbn [removelast]; [lia|]. destruct l; rewrite !zlen_cons in *; [change (zlen (@nil A)) with 0; lia|lia]. Qed.
Lemma Cok_PopBack h c : Cok h c -> Cok h (PopBack c).
Proof.
  unfold PopBack, Cok at 2. cbn [with_blocks coffs cblocks]. unfold Cok. destruct (coffs c) as [l|]; cbn [option_map].
  - intros (o & R & ->). exists o. split; [assumption|]. destruct (cblocks c) as [|b0 bs0] eqn:EB; [reflexivity|]. rewrite (split_last (b0 :: bs0) 0) at 1 by discriminate.
    rewrite offs_from_app by assumption. cbn [offs_from]. rewrite removelast_last. reflexivity.
  - unfold count. cbn [with_blocks cblocks]. intros H. pose proof (zlen_removelast (cblocks c)). lia.
Qed.
Lemma Cok_PopFront h c : Cok h c -> Cok h (PopFront c).
Proof.
  unfold PopFront, Cok at 2. cbn [with_blocks coffs cblocks]. unfold Cok. destruct (coffs c) as [l|]; cbn [option_map].
  - intros (o & R & ->). destruct (cblocks c) as [|b0 bs0] eqn:EB; cbn [offs_from tl].
    + exists 0. split; [lia|reflexivity].
    + exists (u64 (o + size h b0)). split; [apply u64_range|reflexivity].
  - unfold count. cbn [with_blocks cblocks]. destruct (cblocks c); cbn [tl]; rewrite ?zlen_cons; lia.
Qed.
Lemma zlen_one {A} (x : A) : zlen [x] = 1. Proof. reflexivity. Qed.
Lemma Cok_SetBack h c b : cblocks c <> [] -> Cok h c -> Cok h (SetBack_keep c b).
Proof.
  intros N. unfold SetBack_keep, Cok. cbn [with_blocks coffs cblocks]. destruct (coffs c) as [l|].
  - intros (o & R & ->). exists o. split; [assumption|]. rewrite (split_last (cblocks c) 0 N) at 1. rewrite !offs_from_app by assumption. reflexivity.
  - unfold count. cbn [with_blocks cblocks]. rewrite (split_last (cblocks c) 0 N) at 1. rewrite !zlen_app, !zlen_one. lia.
Qed.
Lemma Cok_SetFrontSame h c b : cblocks c <> [] -> size h b = size h (front c) -> Cok h c -> Cok h (SetFrontSameSize_keep c b).
Proof.
  intros N S0. unfold SetFrontSameSize_keep, Cok. cbn [with_blocks coffs cblocks]. unfold front in S0. unfold count. cbn [with_blocks cblocks]. destruct (cblocks c) as [|b0 bs0]; [easy|]. cbn [hd] in S0. cbn [tl].
  destruct (coffs c) as [l|].
  - intros (o & R & ->). exists o. split; [assumption|]. cbn [offs_from]. now rewrite S0.
  - rewrite !zlen_cons. lia.
Qed.
Lemma CokT_SetFront h c b : cblocks c <> [] -> CokT h c -> CokT h (SetFrontSameSize_keep c b).
Proof.
  intros N. unfold SetFrontSameSize_keep, CokT. cbn [with_blocks coffs cblocks tl]. destruct (coffs c) as [l|]; [trivial|]. unfold count. cbn [with_blocks cblocks]. destruct (cblocks c); [easy|]. cbn [tl]. rewrite !zlen_cons. lia.
Qed.
Lemma Cok_RefreshFront h c : cblocks c <> [] -> CokT h c -> Cok h (RefreshFront h c).
Proof.
  intros N. unfold RefreshFront, Cok, CokT. cbn [with_blocks coffs cblocks]. destruct (coffs c) as [l|].
  - intros (o & l' & -> & q & R & ->). unfold front. destruct (cblocks c) as [|b0 bs0]; [easy|]. cbn [hd tl]. destruct bs0 as [|b1 bs1]; cbn [offs_from].
    + exists 0. split; [lia|reflexivity].
    + exists (u64 (q - size h b0)). split; [apply u64_range|]. cbn [offs_from]. now rewrite u64_sub_add.
  - unfold count. cbn [with_blocks cblocks]. trivial.
Qed.
Lemma RefreshFront_blocks h c : cblocks (RefreshFront h c) = cblocks c. Proof. reflexivity. Qed.
End S.
