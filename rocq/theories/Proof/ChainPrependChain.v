(** Prepending a Chain or a block to a Chain. *)
From Verif Require Import Base.Bytes Model.BufferSizer Model.Chain Proof.ChainHeap Proof.ChainSteps Proof.ChainAppend Proof.ChainAppendChain Proof.ChainRaw Proof.ChainPrepend.

Section A.
Context (E : env) (EO : env_ok E) (F : Z -> Z) (PF : forall x, 0 <= F x).

Definition Last (h : heap) (c : chain) (f : Z) (r : option (heap * chain * bool)) : Prop :=
  exists h' c' skip, r = Some (h', c', skip) /\ St F h' c' /\ csize c' = csize c /\ flat h' (cblocks c') = (if skip then data h f else []) ++ content h c /\ keeps F h h'.

Lemma in_tl {A} (x : A) l : In x (tl l) -> In x l. Proof. destruct l; [easy|]. now right. Qed.
(** prepending the data of [f] to the first block in place *)
Lemma in_place_p h c f : St F h c -> cblocks c <> [] -> 0 < F f -> can_prepend h (front c) (size h f) = true ->
  Last h c f (let* h := Block_Prepend h (front c) (data h f) in Some (h, RefreshFront h c, true)).
Proof.
  intros ST N Pf CA. pose proof ST as [I K]. pose proof CA as M. unfold can_prepend in M. apply andb_prop in M as [M _].
  destruct (prepend_step h _ (front c) (data h f) I (in_plus F _ _ PF (front_in c N)) CA) as (h1 & E1 & I1 & D1 & D1'). rewrite E1.
  destruct (front_changed F PF h h1 c ST N M I1 D1') as (K1 & KE & FL).
  exists h1, (RefreshFront h1 c), true. split; [reflexivity|]. split; [split; assumption|]. split; [reflexivity|]. split; [|exact KE].
  rewrite RefreshFront_blocks, FL, D1, (content_flat h c N), (flat_split_front h c N). now rewrite app_assoc.
Qed.
Lemma merged_front h c f k : St F h c -> cblocks c <> [] -> 0 < F f -> 0 < k <= kMaxCapacity -> size h (front c) + size h f <= k ->
  Last h c f (let* (b, h) := NewInternal E h k in let* h := Block_Prepend h b (data h (front c)) in let* h := Block_Prepend h b (data h f) in let '(h, c) := SetFront h c b in Some (h, c, true)).
Proof.
  intros [I CK] N Pf KB L. destruct (new_two_p E EO _ h k (front c) f I (in_plus F _ _ PF (front_in c N)) (F_plus _ _ _ Pf) KB L) as (n & h1 & h2 & h3 & E1 & E2 & E3 & I3 & RN & D3 & _ & DN).
  rewrite E1, E2, E3. unfold SetFront.
  assert (KE : keeps (plus F (cblocks c)) h h3) by (eapply fresh_keeps; eassumption).
  assert (CK3 : Cok h3 c) by (eapply Cok_keep; [|exact CK]; intros x HI; apply KE; now apply in_plus).
  destruct (set_front_st F PF h3 c n I3 CK3 N) as (ST4 & KE4 & _).
  eexists (Unref h3 (front c)), _, true. split; [reflexivity|]. split; [exact ST4|]. split; [reflexivity|]. split.
  - rewrite RefreshFront_blocks. cbn [SetFrontSameSize_keep with_blocks cblocks]. rewrite (keeps_flat _ h3 _ _ KE4) by (intros x HI; now apply in_plus). rewrite flat_cons, DN, (content_flat h c N), (flat_split_front h c N), app_assoc. f_equal.
    eapply keeps_flat; [exact KE|]. intros x HI. apply in_plus; [exact PF|now apply in_tl].
  - eapply keeps_trans; eapply keeps_F; eassumption.
Qed.
Lemma popped_front h c f (skip : bool) : St F h c -> cblocks c <> [] -> is_empty h (front c) = true -> (skip = true -> is_empty h f = true) ->
  Last h c f (Some (Unref h (front c), PopFront c, skip)).
Proof.
  intros ST N EM EF. destruct (pop_front_st F PF h c ST N) as (ST1 & KE). eexists _, _, _. split; [reflexivity|]. split; [exact ST1|]. split; [reflexivity|]. split; [|eapply keeps_F; exact KE].
  cbn [PopFront with_blocks cblocks]. rewrite (keeps_flat _ h _ _ KE) by (intros x HI; now apply in_plus). rewrite (content_flat h c N), (flat_split_front h c N), (is_empty_spec _ _ EM).
  destruct skip; [rewrite (is_empty_spec _ _ (EF eq_refl))|]; reflexivity.
Qed.
Lemma unchanged_p h c f (skip : bool) : St F h c -> flat h (cblocks c) = content h c -> (skip = true -> is_empty h f = true) -> Last h c f (Some (h, c, skip)).
Proof.
  intros ST FL EF. eexists _, _, _. split; [reflexivity|]. split; [exact ST|]. split; [reflexivity|]. split; [|apply keeps_refl]. rewrite FL.
  destruct skip; [rewrite (is_empty_spec _ _ (EF eq_refl))|]; reflexivity.
Qed.
Lemma pushed_p h c f n h1 (skip : bool) : St F h c -> flat h (cblocks c) = content h c -> Inv h1 (fun x => plus F (cblocks c) x + one n x) -> plus F (cblocks c) n = 0 -> (forall z, z <> n -> data h1 z = data h z) ->
  data h1 n = (if skip then data h f else []) -> Last h c f (Some (h1, PushFront h1 c n, skip)).
Proof.
  intros [I CK] FL I1 RN D1 DN. assert (KE : keeps (plus F (cblocks c)) h h1) by (eapply fresh_keeps; eassumption).
  eexists _, _, _. split; [reflexivity|]. split; [|split; [reflexivity|split; [|eapply keeps_F; exact KE]]].
  - apply push_front_st; [exact PF|exact I1|]. eapply Cok_keep; [|exact CK]. intros x HI. apply KE. now apply in_plus.
  - cbn [PushFront with_blocks cblocks]. rewrite flat_cons, DN, <- FL. f_equal. eapply keeps_flat; [exact KE|]. intros x HI. now apply in_plus.
Qed.
(** short data in a new block, with other data before *)
Lemma short_block_p h c f n h1 (skip : bool) : St F h c -> cblocks c = [] -> Inv h1 (fun x => plus F (cblocks c) x + one n x) -> plus F (cblocks c) n = 0 -> (forall z, z <> n -> data h1 z = data h z) ->
  data h1 n = (if skip then data h f else []) ++ short_data c -> Last h c f (Some (h1, PushFront h1 c n, skip)).
Proof.
  intros [I CK] EB I1 RN D1 DN. assert (KE : keeps (plus F (cblocks c)) h h1) by (eapply fresh_keeps; eassumption).
  eexists _, _, _. split; [reflexivity|]. split; [|split; [reflexivity|split; [|eapply keeps_F; exact KE]]].
  - apply push_front_st; [exact PF|exact I1|]. eapply Cok_keep; [|exact CK]. rewrite EB. easy.
  - cbn [PushFront with_blocks cblocks]. rewrite EB. rewrite flat_one, DN, (content_short h c EB). reflexivity.
Qed.

Lemma merge_p_ok h c f n opt : opt_ok opt -> St F h c -> Ok h c -> cblocks c <> [] -> 0 < F f -> size h (front c) + size h f <= kMaxCapacity -> Last h c f (PrependChain_merge E h c f n opt).
Proof.
  intros OO ST OK N Pf L. pose proof (size_nonneg h (front c)). pose proof (size_nonneg h f).
  assert (SBC : size h (front c) <= csize c). { rewrite (ok_size _ _ OK), (content_flat h c N), (flat_split_front h c N), zlen_app. fold (size h (front c)). pose proof (zlen_nonneg (flat h (tl (cblocks c)))). lia. }
  unfold PrependChain_merge. destruct (is_empty h f && is_empty h (front c)) eqn:EM.
  - apply andb_prop in EM as [E1 E2]. now apply popped_front.
  - assert (S0 : 0 < size h (front c) + size h f).
    { unfold is_empty in EM. apply Bool.andb_false_iff in EM as [Q|Q]; apply Z.eqb_neq in Q; lia. }
    destruct (can_prepend h (front c) (size h f)) eqn:CA; cbn [andb].
    + destruct ((n =? 1) || negb (wasteful E h (front c) (size h f))); [now apply in_place_p|].
      unfold check. destruct (Z.leb_spec (size h f) (kMaxCapacity - size h (front c))); [|lia].
      destruct (n =? 1); [destruct (new_capacity c (size h (front c)) (size h f) 0 opt OO) as (k & EK & KL & KB); [lia|lia|lia|lia|]; rewrite EK|]; apply merged_front; auto; lia.
    + unfold check. destruct (Z.leb_spec (size h f) (kMaxCapacity - size h (front c))); [|lia].
      destruct (n =? 1); [destruct (new_capacity c (size h (front c)) (size h f) 0 opt OO) as (k & EK & KL & KB); [lia|lia|lia|lia|]; rewrite EK|]; apply merged_front; auto; lia.
Qed.

Lemma last_ok h c f n opt : opt_ok opt -> St F h c -> Ok h c -> 0 < F f -> Last h c f (PrependChain_last E h c f n opt).
Proof.
  intros OO ST OK Pf. pose proof ST as [I CK]. pose proof (size_nonneg h f) as Sf. assert (SN : 0 <= csize c) by (rewrite (ok_size _ _ OK); apply zlen_nonneg).
  assert (WF : forall x, 0 <= x -> wasteful E h f x = true -> 2 * size h f <= kMaxCapacity) by (intros x X; apply (wasteful_size E EO _ h f x I (F_plus _ _ _ Pf) X)).
  unfold PrependChain_last. destruct (cblocks c) as [|b0 bs0] eqn:EB.
  - clear I. assert (I : Inv h (plus F (cblocks c))) by apply ST. pose proof (ok_short _ _ OK EB) as SH. pose proof (ok_size _ _ OK) as SZ. rewrite (content_short h c EB) in SZ. consts.
    assert (NIL : csize c = 0 -> flat h (cblocks c) = content h c).
    { intros Q. rewrite (content_short h c EB), EB. unfold short_data. rewrite Q, ztake_nonpos by lia. reflexivity. }
    destruct (tiny h f || (1 <? n) && wasteful E h f 0) eqn:TI.
    + assert (Lf : size h f <= kMaxCapacity - 16).
      { apply Bool.orb_true_iff in TI as [TI|TI]; [apply tiny_size in TI; lia|]. apply andb_prop in TI as [_ TI]. apply WF in TI; lia. }
      destruct (negb (csize c =? 0) || negb (is_empty h f)) eqn:NE.
      * assert (S0 : 0 < csize c + size h f). { unfold is_empty in NE. destruct (Z.eqb_spec (csize c) 0); [|lia]. destruct (Z.eqb_spec (size h f) 0); [discriminate|lia]. }
        unfold check. destruct (Z.leb_spec (size h f) (kMaxCapacity - csize c)); [|lia].
        assert (KK : exists k, (if n =? 1 then NewBlockCapacity c (csize c) (size h f) 0 opt else Some (csize c + size h f)) = Some k /\ 0 < k /\ csize c + size h f <= k /\ k <= kMaxCapacity).
        { destruct (n =? 1); [|eexists; split; [reflexivity|lia]].
          destruct (new_capacity c (csize c) (size h f) 0 opt OO) as (k & EK & KL & KB); [lia|lia|lia|lia|]. exists k. split; [exact EK|lia]. }
        destruct KK as (k & EK & K1 & K2 & K3). rewrite EK.
        destruct (new_short_p E EO _ h k (short_data c) I) as (m & h1 & h2 & k' & E1 & E2 & KB' & AB2 & I2 & RN & D2 & DN); [lia|lia|]. rewrite E1, E2.
        assert (Nf : f <> m) by (intros ->; pose proof (F_plus F (cblocks c) m Pf); lia).
        destruct (PB_prepend h2 (fun z => plus F (cblocks c) z + one m z) m k' (data h2 f) I2) as (h3 & E3 & I3 & _ & D3 & D3'); [rewrite one_same; lia|assumption| |].
        { unfold size. rewrite DN, D2 by assumption. fold (size h f). lia. }
        rewrite E3. apply short_block_p; auto.
        -- intros z NZ. rewrite D3', D2 by assumption. reflexivity.
        -- rewrite D3, DN, D2 by assumption. reflexivity.
      * apply Bool.orb_false_iff in NE as [Q1 Q2]. apply Bool.negb_false_iff in Q1, Q2. apply Z.eqb_eq in Q1. apply unchanged_p; auto.
    + destruct (Z.eqb_spec (csize c) 0) as [Q|Q]; cbn [negb].
      * apply unchanged_p; auto. discriminate.
      * destruct (new_short E EO _ h 16 (short_data c) I) as (m & h1 & h2 & k' & E1 & E2 & KB' & AB2 & I2 & RN & D2 & DN); [lia|lia|]. rewrite E1. change kMaxShortDataSize with 16 in E2. rewrite E2.
        apply short_block_p; auto.
  - assert (N : cblocks c <> []) by (rewrite EB; discriminate). clear I. assert (I : Inv h (plus F (cblocks c))) by apply ST. clear b0 bs0 EB. pose proof (in_plus F _ _ PF (front_in c N)) as PB.
    assert (WB : forall x, 0 <= x -> wasteful E h (front c) x = true -> 2 * size h (front c) <= kMaxCapacity) by (intros x X; apply (wasteful_size E EO _ h _ x I PB X)).
    pose proof (size_nonneg h (front c)). assert (FC : flat h (cblocks c) = content h c) by (symmetry; now apply content_flat).
    destruct (tiny h (front c) && tiny h f) eqn:TI.
    { apply andb_prop in TI as [T1 T2]. apply tiny_size in T1, T2. apply merge_p_ok; auto. consts. lia. }
    destruct (is_empty h (front c)) eqn:EM.
    { assert (size h (front c) = 0) by (unfold is_empty in EM; now apply Z.eqb_eq in EM).
      destruct ((1 <? n) && wasteful E h f 0) eqn:W; [apply andb_prop in W as [_ W]; apply WF in W; [apply merge_p_ok; auto; lia|lia]|]. apply popped_front; auto. discriminate. }
    apply is_empty_false in EM.
    destruct (wasteful E h (front c) 0) eqn:WAS.
    { apply WB in WAS; [|lia]. destruct ((1 <? n) && (is_empty h f || wasteful E h f 0)) eqn:G.
      - apply andb_prop in G as [_ G]. apply merge_p_ok; auto. apply Bool.orb_true_iff in G as [G|G]; [unfold is_empty in G; apply Z.eqb_eq in G; lia|apply WF in G; lia].
      - destruct (can_prepend h (front c) (size h f) && ((n =? 1) || negb (wasteful E h (front c) (size h f))) && (size h f <=? kAllocationCost + size h (front c))) eqn:CA.
        + apply andb_prop in CA as [CA _]. apply andb_prop in CA as [CA _]. now apply in_place_p.
        + destruct (copy_step E EO h _ (front c) I PB) as (m & h1 & E1 & I1 & RN & D1 & DN); [lia|]. rewrite E1. unfold SetFrontSameSize.
          assert (KE : keeps (plus F (cblocks c)) h h1) by (eapply fresh_keeps; eassumption).
          assert (CK1 : Cok h1 c) by (eapply Cok_keep; [|exact CK]; intros x HI; apply KE; now apply in_plus).
          destruct (set_front_same_st F PF h1 c m I1 CK1 N) as (ST4 & KE4); [unfold size; rewrite DN, (KE _ PB); reflexivity|].
          eexists _, _, _. split; [reflexivity|]. split; [exact ST4|]. split; [reflexivity|]. split; [|eapply keeps_trans; eapply keeps_F; eassumption].
          cbn [SetFrontSameSize_keep with_blocks cblocks app]. rewrite (keeps_flat _ h1 _ _ KE4) by (intros x HI; now apply in_plus). rewrite flat_cons, DN, (content_flat h c N), (flat_split_front h c N). f_equal.
          eapply keeps_flat; [exact KE|]. intros x HI. apply in_plus; [exact PF|now apply in_tl]. }
    destruct (1 <? n) eqn:N1; [|apply unchanged_p; auto; discriminate].
    destruct (is_empty h f) eqn:EF; [apply unchanged_p; auto|]. apply is_empty_false in EF.
    destruct (wasteful E h f 0) eqn:WAF; [|apply unchanged_p; auto; discriminate]. apply WF in WAF; [|lia].
    destruct (can_prepend h (front c) (size h f)) eqn:CA; cbn [andb]; [destruct (negb (wasteful E h (front c) (size h f))); [now apply in_place_p|]|];
      (destruct (copy_step E EO h _ f I (F_plus _ _ _ Pf)) as (m & h1 & E1 & I1 & RN & D1 & DN); [lia|]; rewrite E1; apply pushed_p; auto).
Qed.
End A.

Lemma PrependBlocks_size share h c bs : csize (snd (PrependBlocks share h c bs)) = csize c. Proof. unfold PrependBlocks. destruct bs; reflexivity. Qed.
Lemma PrependBlocks_heap share h c bs : fst (PrependBlocks share h c bs) = if share then fold_left Ref bs h else h.
Proof. unfold PrependBlocks. destruct bs; [destruct share; reflexivity|reflexivity]. Qed.

Section B.
Context (E : env) (EO : env_ok E).

Lemma PrependChain_ok share G h c src opt : (forall x, 0 <= G x) -> opt_ok opt -> Inv h (fun x => plus G (cblocks c) x + cnt x (cblocks src)) -> Ok h c -> Ok h src -> csize c + csize src <= SIZE_MAX ->
  exists h' c' src', PrependChain E share h c src opt = Some (h', c', src') /\ Inv h' (fun x => plus G (cblocks c') x + cnt x (cblocks src')) /\ Ok h' c' /\ Ok h' src' /\
    content h' c' = content h src ++ content h c /\ keeps G h h' /\ (share = true -> src' = src /\ content h' src = content h src).
Proof.
  intros PG OO I OK OS MS. unfold PrependChain. destruct (cblocks src) as [|f0 rest0] eqn:EB0.
  - assert (SS : content h src = short_data src) by now apply content_short.
    assert (I0 : Inv h (plus G (cblocks c))) by (eapply Inv_ext; [|exact I]; intros x; cbn [cnt]; lia).
    destruct (Prepend_ok E EO G PG h c (short_data src) opt OO I0 OK) as (h' & c' & E1 & I1 & OK1 & CT & KE); [rewrite <- SS, <- (ok_size _ _ OS); exact MS|].
    rewrite E1. exists h', c', src. split; [reflexivity|]. split; [eapply Inv_ext; [|exact I1]; intros x; rewrite EB0; cbn [cnt]; lia|]. split; [exact OK1|]. split.
    + destruct OS as [S1 S2 S3]. constructor; [rewrite (content_short h' _ EB0), <- SS; exact S1|exact S2|]. eapply Cok_keep; [|exact S3]. rewrite EB0. easy.
    + split; [rewrite CT, SS; reflexivity|]. split; [exact KE|]. intros _. split; [reflexivity|]. rewrite !content_short by assumption. reflexivity.
  - assert (NS : cblocks src <> []) by (rewrite EB0; discriminate). rewrite <- EB0 in *. clear f0 rest0 EB0.
    pose proof (split_back src NS) as EB. set (f := back src) in *. set (rest := removelast (cblocks src)) in *. clearbody f rest.
    unfold check. destruct (Z.leb_spec (csize src) (SIZE_MAX - csize c)); [|lia].
    set (F := fun x => G x + cnt x (rest ++ [f])). rewrite EB in I.
    assert (PF : forall x, 0 <= F x) by (intros x; unfold F; pose proof (PG x); pose proof (cnt_nonneg x (rest ++ [f])); lia).
    assert (Ff : 0 < F f) by (unfold F; rewrite cnt_app, cnt_one, one_same; pose proof (PG f); pose proof (cnt_nonneg f rest); lia).
    assert (FI : forall x, In x (rest ++ [f]) -> 0 < F x) by (intros x HI; unfold F; apply cnt_in in HI; pose proof (PG x); lia).
    assert (FG : forall x, G x <= F x) by (intros x; unfold F; pose proof (cnt_nonneg x (rest ++ [f])); lia).
    assert (I0 : Inv h (plus F (cblocks c))) by (eapply Inv_ext; [|exact I]; intros x; unfold plus, F; lia).
    destruct (last_ok E EO F PF h c f (count src) opt OO (conj I0 (ok_offs _ _ OK)) OK Ff) as (h1 & c1 & skip & E1 & [I1 CK1] & SZ1 & FL1 & KE1).
    rewrite E1. cbv beta iota zeta.
    assert (CS : content h src = flat h rest ++ data h f) by (rewrite (content_flat h src NS), EB, flat_app, flat_one; reflexivity).
    set (todo := if skip then rest else rest ++ [f]).
    set (h2 := if skip && negb share then Unref h1 f else h1).
    set (F2 := if skip && negb share then (fun x => G x + cnt x rest) else F).
    assert (PF2 : forall x, 0 <= F2 x) by (intros x; unfold F2; destruct (skip && negb share); [pose proof (PG x); pose proof (cnt_nonneg x rest); lia|apply PF]).
    assert (S2 : Inv h2 (plus F2 (cblocks c1)) /\ keeps (plus F2 (cblocks c1)) h1 h2).
    { unfold h2, F2. destruct (skip && negb share); [|split; [exact I1|apply keeps_refl]]. apply Inv_Unref.
      - eapply Inv_ext; [|exact I1]. intros x. unfold plus, F. rewrite cnt_app, cnt_one. lia.
      - intros x. pose proof (PG x). pose proof (cnt_nonneg x rest). unfold plus. pose proof (cnt_nonneg x (cblocks c1)). lia. }
    destruct S2 as [I2 KE2].
    assert (F2F : forall x, F2 x <= F x) by (intros x; unfold F2, F; destruct (skip && negb share); [rewrite cnt_app, cnt_one; pose proof (one_nonneg f x); lia|lia]).
    assert (GF2 : forall x, G x <= F2 x) by (intros x; unfold F2; destruct (skip && negb share); [pose proof (cnt_nonneg x rest); lia|apply FG]).
    assert (TD : forall x, In x todo -> 0 < F2 x).
    { intros x HI. unfold todo in HI. unfold F2. destruct skip; cbn [andb].
      - destruct (negb share); [pose proof (PG x); apply cnt_in in HI; lia|]. apply FI. apply in_or_app. now left.
      - apply FI. exact HI. }
    assert (KE12 : keeps F2 h h2). { eapply keeps_trans; [eapply keeps_le; [exact F2F|exact KE1]|eapply keeps_F; exact KE2]. }
    assert (CK2 : Cok h2 (with_size c1 (csize c1 + csize src))). { apply Cok_size. eapply Cok_keep; [|exact CK1]. intros x HI. apply KE2. now apply in_plus. }
    assert (FL2 : flat h2 (cblocks c1) = flat h1 (cblocks c1)). { eapply keeps_flat; [exact KE2|]. intros x HI. now apply in_plus. }
    fold todo. fold h2. set (c2 := with_size c1 (csize c1 + csize src)) in *.
    pose proof (PrependBlocks_blocks share h2 c2 todo) as AB. pose proof (PrependBlocks_size share h2 c2 todo) as AS. pose proof (PrependBlocks_heap share h2 c2 todo) as AH. pose proof (Cok_PrependBlocks share h2 c2 todo CK2) as AC.
    destruct (PrependBlocks share h2 c2 todo) as [h3 c3]. cbn [fst snd] in *.
    assert (D3 : forall x, data h3 x = data h2 x).
    { intros x. rewrite AH. destruct share; [|reflexivity]. apply (Inv_Refs todo h2 _ I2). intros y HI. apply F_plus. auto. }
    assert (I3 : Inv h3 (fun x => plus F2 (cblocks c1) x + if share then cnt x todo else 0)).
    { rewrite AH. destruct share; [apply Inv_Refs; [exact I2|]; intros y HI; apply F_plus; auto|]. eapply Inv_ext; [|exact I2]. intros x. lia. }
    assert (FL3 : flat h3 (cblocks c3) = content h src ++ content h c).
    { rewrite AB. rewrite (flat_keep h2 h3) by (intros; apply D3). rewrite flat_app. cbn [c2 with_size cblocks]. rewrite FL2, FL1, CS.
      rewrite (keeps_flat _ h h2 todo KE12) by exact TD. unfold todo. destruct skip; [now rewrite <- app_assoc|]. rewrite flat_app, flat_one. reflexivity. }
    assert (SZ3 : csize c3 = zlen (content h src ++ content h c)).
    { rewrite AS. cbn [c2 with_size csize]. rewrite SZ1, zlen_app, (ok_size _ _ OK), (ok_size _ _ OS). lia. }
    assert (CK3 : Cok h3 c3) by (eapply Cok_keep; [|exact AC]; intros; apply D3).
    assert (KEG : keeps G h h3). { intros x P. rewrite D3. apply KE12. specialize (GF2 x). lia. }
    destruct share.
    + assert (F2E : forall x, F2 x = F x) by (intros x; unfold F2; destruct skip; reflexivity). exists h3, c3, src. split; [reflexivity|].
      assert (KS : forall x, In x (cblocks src) -> data h3 x = data h x). { intros x HI. rewrite D3. apply KE12. rewrite F2E. apply FI. now rewrite <- EB. }
      assert (CC : content h3 src = content h src) by (rewrite !content_flat by assumption; now apply flat_keep).
      split; [|split; [|split; [|split; [|split; [exact KEG|]]]]].
      * eapply Inv_ext; [|exact I3]. intros x. cbv beta. unfold plus. rewrite F2E. unfold F. rewrite AB, EB. cbn [c2 with_size cblocks]. rewrite !cnt_app. lia.
      * eapply Ok_of; eassumption.
      * destruct OS as [S1 S2' S3]. constructor; [rewrite CC; exact S1|exact S2'|]. eapply Cok_keep; [exact KS|exact S3].
      * now apply content_of.
      * intros _. split; [reflexivity|exact CC].
    + exists h3, c3, (with_size (with_blocks src [] (match coffs src with Some _ => Some [] | None => None end)) 0). split; [reflexivity|].
      split; [|split; [|split; [|split; [|split; [exact KEG|discriminate]]]]].
      * eapply Inv_ext; [|exact I3]. intros x. cbv beta iota. unfold plus. rewrite AB. cbn [c2 with_size with_blocks cblocks cnt]. rewrite cnt_app. subst F2 todo F. destruct skip; cbn [andb negb]; cbv beta; rewrite ?cnt_app; lia.
      * eapply Ok_of; eassumption.
      * eapply (Ok_of _ _ []); [|reflexivity|reflexivity]. apply Cok_nil; [reflexivity|]. cbn [with_size with_blocks coffs]. destruct (coffs src); auto.
      * now apply content_of.
Qed.
End B.

Section R.
Context (E : env) (EO : env_ok E) (G : Z -> Z) (PG : forall x, 0 <= G x).
Lemma pushed_fin_p h h1 c1 b s n : Inv h1 (plus (withb G b) (cblocks c1)) -> Cok h1 c1 -> n = zlen s + size h1 b -> flat h1 (cblocks c1) = s -> keeps (withb G b) h h1 -> Post G h h1 (PushFront h1 (with_size c1 n) b) (data h b ++ s).
Proof.
  intros I K SZ FL KE. assert (DB : data h1 b = data h b) by (apply KE; now apply withb_b).
  change (PushFront h1 (with_size c1 n) b) with (with_size (PushFront h1 c1 b) n). apply passed_fin.
  - apply push_front_st; [exact PG|now apply inv_withb|exact K].
  - rewrite zlen_app, <- DB. fold (size h1 b). lia.
  - cbn [PushFront with_blocks cblocks]. rewrite flat_cons, FL, DB. reflexivity.
  - eapply keeps_le; [now apply withb_G|exact KE].
Qed.

Lemma PrependRawBlock_ok h c b opt : opt_ok opt -> enough opt (size h b) -> Inv h (fun x => plus G (cblocks c) x + one b x) -> Ok h c -> csize c + size h b <= SIZE_MAX ->
  exists h' c', PrependRawBlock E h c b opt = Some (h', c') /\ Post G h h' c' (data h b ++ content h c).
Proof.
  intros OO EN I0 OK MS. pose proof (withb_inv G PG _ _ _ I0) as I. pose proof (withb_pos G PG b) as PF. pose proof (withb_b G PG b) as Pb. set (F := withb G b) in *.
  pose proof OK as [SZ SH CK]. assert (ST : St F h c) by (split; assumption). pose proof (size_nonneg h b) as SBN. assert (SN : 0 <= csize c) by (rewrite SZ; apply zlen_nonneg).
  assert (SS : csize c + size h b = zlen (data h b ++ content h c)) by (rewrite zlen_app, SZ; fold (size h b); lia).
  unfold PrependRawBlock. unfold check at 1. destruct (Z.leb_spec (size h b) (SIZE_MAX - csize c)); [|lia].
  destruct (cblocks c) as [|b0 bs0] eqn:EB.
  - rewrite <- EB in I0, I. specialize (SH eq_refl). pose proof SZ as SZ1. rewrite (content_short h c EB) in SZ1. consts.
    destruct (Z.eqb_spec (csize c) 0) as [Q|Q]; cbn [negb].
    + eexists _, _. split; [reflexivity|]. apply pushed_fin_p; [exact I|exact CK|lia| |apply keeps_refl].
      rewrite (content_short h c EB), EB. unfold short_data. rewrite Q, ztake_nonpos by lia. reflexivity.
    + destruct (tiny h b) eqn:TI.
      * apply tiny_size in TI. unfold check. destruct (Z.leb_spec (size h b) (kMaxCapacity - csize c)); [|lia].
        destruct (new_capacity c (csize c) (size h b) 0 opt OO) as (k & EK & KL & KB); [lia|lia|lia|lia|]. rewrite EK.
        destruct (new_short_p E EO _ h k (short_data c) I) as (m & h1 & h2 & k' & E1 & E2 & KB' & AB2 & I2 & RN & D2 & DN); [lia|lia|]. rewrite E1, E2.
        assert (Nf : b <> m) by (intros ->; pose proof (F_plus F (cblocks c) m Pb); lia).
        destruct (PB_prepend h2 (fun z => plus F (cblocks c) z + one m z) m k' (data h2 b) I2) as (h3 & E3 & I3 & _ & D3 & D3'); [rewrite one_same; lia|assumption| |].
        { unfold size. rewrite DN, D2 by assumption. fold (size h b). lia. }
        rewrite E3. destruct (short_block_p F PF h c b m h3 true ST EB I3 RN) as (h' & c' & sk & EQ & ST1 & SZ' & FL1 & KE1).
        { intros z NZ. rewrite D3', D2 by assumption. reflexivity. }
        { rewrite D3, DN, D2 by assumption. reflexivity. }
        injection EQ as <- <- <-. eexists _, _. split; [reflexivity|]. apply copied_fin; [exact PG|exact ST1| |exact FL1|exact KE1].
        cbn [PushFront with_blocks csize]. unfold size. rewrite (KE1 b Pb). exact SS.
      * destruct (new_short E EO _ h 16 (short_data c) I) as (m & h1 & h2 & k' & E1 & E2 & KB' & AB2 & I2 & RN & D2 & DN); [lia|lia|]. change kMaxShortDataSize with 16 in E2. rewrite E1, E2.
        destruct (short_block_p F PF h c b m h2 false ST EB I2 RN D2) as (h' & c' & sk & EQ & [I4 K4] & SZ' & FL1 & KE1); [exact DN|].
        injection EQ as <- <- <-. cbn [app] in FL1. eexists _, _. split; [reflexivity|]. apply pushed_fin_p; [exact I4|exact K4| |exact FL1|exact KE1].
        cbn [PushFront with_blocks csize]. rewrite SZ. reflexivity.
  - rewrite <- EB in I0, I. assert (N : cblocks c <> []) by (rewrite EB; discriminate). clear b0 bs0 EB SH. pose proof (in_plus F _ _ PF (front_in c N)) as PB.
    pose proof (size_nonneg h (front c)). assert (FC : flat h (cblocks c) = content h c) by (symmetry; now apply content_flat).
    assert (SBC : size h (front c) <= csize c). { rewrite SZ, (content_flat h c N), (flat_split_front h c N), zlen_app. fold (size h (front c)). pose proof (zlen_nonneg (flat h (tl (cblocks c)))). lia. }
    assert (INP : can_prepend h (front c) (size h b) = true -> exists h' c', (let* h' := Block_Prepend h (front c) (data h b) in Some (Unref h' b, with_size (RefreshFront h' c) (csize (RefreshFront h' c) + size h b))) = Some (h', c') /\ Post G h h' c' (data h b ++ content h c)).
    { intros CA. destruct (in_place_p F PF h c b ST N Pb CA) as (h' & c' & sk & EQ & ST1 & SZ' & FL1 & KE1). destruct (Block_Prepend h (front c) (data h b)) as [h3|]; [|discriminate].
      injection EQ as <- <- <-. eexists _, _. split; [reflexivity|]. apply copied_fin; auto. }
    destruct (tiny h (front c) && tiny h b) eqn:TI.
    { apply andb_prop in TI as [T1 T2]. apply tiny_size in T1, T2. destruct (can_prepend h (front c) (size h b)) eqn:CA; [now apply INP|].
      consts. unfold check. destruct (Z.leb_spec (size h b) (kMaxCapacity - size h (front c))); [|lia].
      destruct (new_capacity' c (size h (front c)) (size h b) 0 opt OO) as (k & EK & KL & KB); [lia|lia|lia|destruct EN as [EN|EN]; [left; lia|right; exact EN]|]. rewrite EK.
      destruct (merged_front E EO F PF h c b k ST N Pb KB KL) as (h' & c' & sk & EQ & ST1 & SZ' & FL1 & KE1).
      destruct (new_two_p E EO _ h k (front c) b I PB (F_plus _ _ _ Pb) KB KL) as (m & h1 & h2 & h3 & E1 & E2 & E3 & _ & RN & D3 & _). rewrite E1, E2, E3 in *.
      unfold SetFront in EQ |- *. injection EQ as <- <- <-.
      eexists _, _. split; [reflexivity|]. change (RefreshFront h3 (SetFrontSameSize_keep (with_size c (csize c + size h3 b)) m)) with (with_size (RefreshFront h3 (SetFrontSameSize_keep c m)) (csize c + size h3 b)).
      change (front (with_size c (csize c + size h3 b))) with (front c). apply copied_fin; [exact PG|exact ST1| |exact FL1|exact KE1].
      rewrite <- SS. f_equal. unfold size. rewrite D3; [reflexivity|]. intros ->. pose proof (F_plus F (cblocks c) m Pb). lia. }
    destruct (is_empty h (front c)) eqn:EM.
    { eexists _, _. split; [reflexivity|]. change (RefreshFront h (SetFrontSameSize_keep (with_size c (csize c + size h b)) b)) with (with_size (RefreshFront h (SetFrontSameSize_keep c b)) (csize c + size h b)).
      change (front (with_size c (csize c + size h b))) with (front c). destruct (set_front_st G PG h c b I0 CK N) as (ST4 & KE4 & _). apply passed_fin; [exact ST4|exact SS| |eapply keeps_F; exact KE4].
      rewrite RefreshFront_blocks. cbn [SetFrontSameSize_keep with_blocks cblocks]. rewrite (keeps_flat _ h _ _ KE4) by (intros x HI; now apply in_plus). rewrite flat_cons, (content_flat h c N), (flat_split_front h c N), (is_empty_spec _ _ EM). reflexivity. }
    apply is_empty_false in EM.
    destruct (wasteful E h (front c) 0) eqn:WAS.
    2:{ eexists _, _. split; [reflexivity|]. apply pushed_fin_p; [exact I|exact CK|rewrite SZ; reflexivity|exact FC|apply keeps_refl]. }
    destruct (can_prepend h (front c) (size h b)) eqn:CA; cbn [andb]; [destruct (size h b <=? kAllocationCost + size h (front c)); [now apply INP|]|];
    (pose proof (wasteful_size E EO _ h _ 0 I PB ltac:(lia) WAS) as WS;
    destruct (copy_step E EO h _ (front c) I PB) as (m & h1 & E1 & I1 & RN & D1 & DN); [lia|]; rewrite E1; unfold SetFrontSameSize;
    assert (KE : keeps (plus F (cblocks c)) h h1) by (eapply fresh_keeps; eassumption);
    assert (CK1 : Cok h1 c) by (eapply Cok_keep; [|exact CK]; intros x HI; apply KE; now apply in_plus);
    destruct (set_front_same_st F PF h1 c m I1 CK1 N) as (ST4 & KE4); [unfold size; rewrite DN, (KE _ PB); reflexivity|];
    eexists _, _; split; [reflexivity|]; apply pushed_fin_p; [apply ST4|apply ST4|cbn [SetFrontSameSize_keep with_blocks csize]; rewrite SZ; reflexivity| |eapply keeps_trans; eapply keeps_F; eassumption];
    cbn [SetFrontSameSize_keep with_blocks cblocks]; rewrite (keeps_flat _ h1 _ _ KE4) by (intros x HI; now apply in_plus); rewrite flat_cons, DN, (content_flat h c N), (flat_split_front h c N); f_equal;
    eapply keeps_flat; [exact KE|]; intros x HI; apply in_plus; [exact PF|now apply in_tl]).
Qed.
End R.
