(** Appending a Chain or a block to a Chain. *)
From Verif Require Import Base.Bytes Model.BufferSizer Model.Chain Proof.ChainHeap Proof.ChainSteps Proof.ChainAppend.

Section A.
Context (E : env) (EO : env_ok E) (F : Z -> Z) (PF : forall x, 0 <= F x).

Definition First (h : heap) (c : chain) (f : Z) (r : option (heap * chain * bool)) : Prop :=
  exists h' c' skip, r = Some (h', c', skip) /\ St F h' c' /\ csize c' = csize c /\ flat h' (cblocks c') = content h c ++ (if skip then data h f else []) /\ keeps F h h'.

(** appending the data of [f] to the last block in place *)
Lemma in_place h c f : St F h c -> cblocks c <> [] -> 0 < F f -> can_append h (back c) (size h f) = true ->
  First h c f (let* h := Block_Append h (back c) (data h f) in Some (h, c, true)).
Proof.
  intros ST N Pf CA. pose proof ST as [I K]. pose proof CA as M. unfold can_append in M. apply andb_prop in M as [M _].
  destruct (append_step h _ (back c) (data h f) I (in_plus F _ _ PF (back_in c N)) CA) as (h1 & E1 & I1 & D1 & D1'). rewrite E1.
  destruct (back_changed F PF h h1 c ST N M I1 D1') as (K1 & KE & FL).
  exists h1, c, true. split; [reflexivity|]. split; [split; assumption|]. split; [reflexivity|]. split; [|exact KE].
  rewrite FL, D1, (content_flat h c N), (flat_split_back h c N). now rewrite app_assoc.
Qed.
(** the data of [f] and of the last block in a new block *)
Lemma merged_back h c f k : St F h c -> cblocks c <> [] -> 0 < F f -> 0 < k <= kMaxCapacity -> size h (back c) + size h f <= k ->
  First h c f (let* (b, h) := NewInternal E h k in let* h := Block_Append h b (data h (back c)) in let* h := Block_Append h b (data h f) in let '(h, c) := SetBack h c b in Some (h, c, true)).
Proof.
  intros [I CK] N Pf KB L. destruct (new_two E EO _ h k (back c) f I (in_plus F _ _ PF (back_in c N)) (F_plus _ _ _ Pf) KB L) as (n & h1 & h2 & h3 & E1 & E2 & E3 & I3 & RN & D3 & _ & DN).
  rewrite E1, E2, E3. unfold SetBack.
  assert (KE : keeps (plus F (cblocks c)) h h3) by (eapply fresh_keeps; eassumption).
  assert (CK3 : Cok h3 c) by (eapply Cok_keep; [|exact CK]; intros x HI; apply KE; now apply in_plus).
  destruct (set_back_st F PF h3 c n I3 CK3 N) as (ST4 & KE4 & _).
  exists (Unref h3 (back c)), (SetBack_keep c n), true. split; [reflexivity|]. split; [exact ST4|]. split; [reflexivity|]. split.
  - cbn [SetBack_keep with_blocks cblocks]. rewrite (keeps_flat _ h3 _ _ KE4) by (intros x HI; now apply in_plus). rewrite flat_app, flat_one, DN, (content_flat h c N), (flat_split_back h c N), app_assoc. do 2 f_equal.
    eapply keeps_flat; [exact KE|]. intros x HI. apply in_plus; [exact PF|now apply In_removelast].
  - eapply keeps_trans; eapply keeps_F; eassumption.
Qed.
Lemma popped_back h c f (skip : bool) : St F h c -> cblocks c <> [] -> is_empty h (back c) = true -> (skip = true -> is_empty h f = true) ->
  First h c f (Some (Unref h (back c), PopBack c, skip)).
Proof.
  intros ST N EM EF. destruct (pop_back_st F PF h c ST N) as (ST1 & KE). eexists _, _, _. split; [reflexivity|]. split; [exact ST1|]. split; [reflexivity|]. split; [|eapply keeps_F; exact KE].
  cbn [PopBack with_blocks cblocks]. rewrite (keeps_flat _ h _ _ KE) by (intros x HI; now apply in_plus). rewrite (content_flat h c N), (flat_split_back h c N), (is_empty_spec _ _ EM), app_nil_r.
  destruct skip; [rewrite (is_empty_spec _ _ (EF eq_refl))|]; now rewrite app_nil_r.
Qed.
Lemma unchanged h c f (skip : bool) : St F h c -> flat h (cblocks c) = content h c -> (skip = true -> is_empty h f = true) -> First h c f (Some (h, c, skip)).
Proof.
  intros ST FL EF. eexists _, _, _. split; [reflexivity|]. split; [exact ST|]. split; [reflexivity|]. split; [|apply keeps_refl]. rewrite FL.
  destruct skip; [rewrite (is_empty_spec _ _ (EF eq_refl))|]; now rewrite app_nil_r.
Qed.
Lemma pushed h c f n h1 (skip : bool) : St F h c -> flat h (cblocks c) = content h c -> Inv h1 (fun x => plus F (cblocks c) x + one n x) -> plus F (cblocks c) n = 0 -> (forall z, z <> n -> data h1 z = data h z) ->
  data h1 n = (if skip then data h f else []) -> First h c f (Some (h1, PushBack h1 c n, skip)).
Proof.
  intros [I CK] FL I1 RN D1 DN. assert (KE : keeps (plus F (cblocks c)) h h1) by (eapply fresh_keeps; eassumption).
  eexists _, _, _. split; [reflexivity|]. split; [|split; [reflexivity|split; [|eapply keeps_F; exact KE]]].
  - apply push_back_st; [exact PF|exact I1|]. eapply Cok_keep; [|exact CK]. intros x HI. apply KE. now apply in_plus.
  - cbn [PushBack with_blocks cblocks]. rewrite flat_app, flat_one, DN, <- FL. f_equal. eapply keeps_flat; [exact KE|]. intros x HI. now apply in_plus.
Qed.
(** short data in a new block, then other data *)
Lemma short_block h c f n h1 (skip : bool) : St F h c -> cblocks c = [] -> Inv h1 (fun x => plus F (cblocks c) x + one n x) -> plus F (cblocks c) n = 0 -> (forall z, z <> n -> data h1 z = data h z) ->
  data h1 n = short_data c ++ (if skip then data h f else []) -> First h c f (Some (h1, PushBack h1 c n, skip)).
Proof.
  intros [I CK] EB I1 RN D1 DN. assert (KE : keeps (plus F (cblocks c)) h h1) by (eapply fresh_keeps; eassumption).
  eexists _, _, _. split; [reflexivity|]. split; [|split; [reflexivity|split; [|eapply keeps_F; exact KE]]].
  - apply push_back_st; [exact PF|exact I1|]. eapply Cok_keep; [|exact CK]. rewrite EB. easy.
  - cbn [PushBack with_blocks cblocks]. rewrite EB. cbn [app]. rewrite flat_one, DN, (content_short h c EB). reflexivity.
Qed.

Lemma merge_ok h c f n opt : opt_ok opt -> St F h c -> Ok h c -> cblocks c <> [] -> 0 < F f -> size h (back c) + size h f <= kMaxCapacity -> First h c f (AppendChain_merge E h c f n opt).
Proof.
  intros OO ST OK N Pf L. pose proof (size_nonneg h (back c)). pose proof (size_nonneg h f).
  assert (SBC : size h (back c) <= csize c). { rewrite (ok_size _ _ OK), (content_flat h c N), (flat_split_back h c N), zlen_app. fold (size h (back c)). pose proof (zlen_nonneg (flat h (removelast (cblocks c)))). lia. }
  unfold AppendChain_merge. destruct (is_empty h (back c) && is_empty h f) eqn:EM.
  - apply andb_prop in EM as [E1 E2]. now apply popped_back.
  - assert (S0 : 0 < size h (back c) + size h f).
    { unfold is_empty in EM. apply Bool.andb_false_iff in EM as [Q|Q]; apply Z.eqb_neq in Q; lia. }
    destruct (can_append h (back c) (size h f)) eqn:CA; cbn [andb].
    + destruct ((n =? 1) || negb (wasteful E h (back c) (size h f))); [now apply in_place|].
      unfold check. destruct (Z.leb_spec (size h f) (kMaxCapacity - size h (back c))); [|lia].
      destruct (n =? 1); [destruct (new_capacity c (size h (back c)) (size h f) 0 opt OO) as (k & EK & KL & KB); [lia|lia|lia|lia|]; rewrite EK|]; apply merged_back; auto; lia.
    + unfold check. destruct (Z.leb_spec (size h f) (kMaxCapacity - size h (back c))); [|lia].
      destruct (n =? 1); [destruct (new_capacity c (size h (back c)) (size h f) 0 opt OO) as (k & EK & KL & KB); [lia|lia|lia|lia|]; rewrite EK|]; apply merged_back; auto; lia.
Qed.

Lemma first_ok h c f n opt : opt_ok opt -> St F h c -> Ok h c -> 0 < F f -> First h c f (AppendChain_first E h c f n opt).
Proof.
  intros OO ST OK Pf. pose proof ST as [I CK]. pose proof (size_nonneg h f) as Sf. assert (SN : 0 <= csize c) by (rewrite (ok_size _ _ OK); apply zlen_nonneg).
  assert (WF : forall x, 0 <= x -> wasteful E h f x = true -> 2 * size h f <= kMaxCapacity) by (intros x X; apply (wasteful_size E EO _ h f x I (F_plus _ _ _ Pf) X)).
  unfold AppendChain_first. destruct (cblocks c) as [|b0 bs0] eqn:EB.
  - clear I. assert (I : Inv h (plus F (cblocks c))) by apply ST. pose proof (ok_short _ _ OK EB) as SH. pose proof (ok_size _ _ OK) as SZ. rewrite (content_short h c EB) in SZ. consts.
    assert (NIL : csize c = 0 -> flat h (cblocks c) = content h c).
    { intros Q. rewrite (content_short h c EB), EB. unfold short_data. rewrite Q, ztake_nonpos by lia. reflexivity. }
    destruct (tiny h f || (1 <? n) && wasteful E h f 0) eqn:TI.
    + assert (Lf : size h f <= kMaxCapacity - 16).
      { apply Bool.orb_true_iff in TI as [TI|TI]; [apply tiny_size in TI; lia|]. apply andb_prop in TI as [_ TI]. apply WF in TI; lia. }
      destruct (negb (csize c =? 0) || negb (is_empty h f)) eqn:NE.
      * unfold check. destruct (Z.leb_spec (size h f) (kMaxCapacity - csize c)); [|lia].
        assert (KK : exists k, (if n =? 1 then NewBlockCapacity c (csize c) (Z.max (size h f) (16 - csize c)) 0 opt else Some (Z.max (csize c + size h f) 16)) = Some k /\ 16 <= k /\ csize c + size h f <= k /\ k <= kMaxCapacity).
        { destruct (n =? 1); [|eexists; split; [reflexivity|lia]].
          destruct (new_capacity c (csize c) (Z.max (size h f) (16 - csize c)) 0 opt OO) as (k & EK & KL & KB); [lia|lia|lia|lia|]. exists k. split; [exact EK|lia]. }
        destruct KK as (k & EK & K1 & K2 & K3). rewrite EK.
        destruct (new_short E EO _ h k (short_data c) I) as (m & h1 & h2 & k' & E1 & E2 & KB' & AB2 & I2 & RN & D2 & DN); [lia|lia|]. rewrite E1. change kMaxShortDataSize with 16 in E2. rewrite E2.
        assert (Nf : f <> m) by (intros ->; pose proof (F_plus F (cblocks c) m Pf); lia).
        destruct (AB_append h2 (fun z => plus F (cblocks c) z + one m z) m k' (data h2 f) I2) as (h3 & E3 & I3 & _ & D3 & D3'); [rewrite one_same; lia|assumption| |].
        { unfold size. rewrite DN, D2 by assumption. fold (size h f). lia. }
        rewrite E3. apply short_block; auto.
        -- intros z NZ. rewrite D3', D2 by assumption. reflexivity.
        -- rewrite D3, DN, D2 by assumption. reflexivity.
      * apply Bool.orb_false_iff in NE as [Q1 Q2]. apply Bool.negb_false_iff in Q1, Q2. apply Z.eqb_eq in Q1. apply unchanged; auto.
    + destruct (Z.eqb_spec (csize c) 0) as [Q|Q]; cbn [negb].
      * apply unchanged; auto. discriminate.
      * destruct (new_short E EO _ h 16 (short_data c) I) as (m & h1 & h2 & k' & E1 & E2 & KB' & AB2 & I2 & RN & D2 & DN); [lia|lia|]. rewrite E1. change kMaxShortDataSize with 16 in E2. rewrite E2.
        apply short_block; auto. now rewrite app_nil_r.
  - assert (N : cblocks c <> []) by (rewrite EB; discriminate). clear I. assert (I : Inv h (plus F (cblocks c))) by apply ST. clear b0 bs0 EB. pose proof (in_plus F _ _ PF (back_in c N)) as PB.
    assert (WB : forall x, 0 <= x -> wasteful E h (back c) x = true -> 2 * size h (back c) <= kMaxCapacity) by (intros x X; apply (wasteful_size E EO _ h _ x I PB X)).
    pose proof (size_nonneg h (back c)). assert (FC : flat h (cblocks c) = content h c) by (symmetry; now apply content_flat).
    destruct (tiny h (back c) && tiny h f) eqn:TI.
    { apply andb_prop in TI as [T1 T2]. apply tiny_size in T1, T2. apply merge_ok; auto. consts. lia. }
    destruct (is_empty h (back c)) eqn:EM.
    { assert (size h (back c) = 0) by (unfold is_empty in EM; now apply Z.eqb_eq in EM).
      destruct ((1 <? n) && wasteful E h f 0) eqn:W; [apply andb_prop in W as [_ W]; apply WF in W; [apply merge_ok; auto; lia|lia]|]. apply popped_back; auto. discriminate. }
    apply is_empty_false in EM.
    destruct (wasteful E h (back c) 0) eqn:WAS.
    { apply WB in WAS; [|lia]. destruct ((1 <? n) && (is_empty h f || wasteful E h f 0)) eqn:G.
      - apply andb_prop in G as [_ G]. apply merge_ok; auto. apply Bool.orb_true_iff in G as [G|G]; [unfold is_empty in G; apply Z.eqb_eq in G; lia|apply WF in G; lia].
      - destruct (can_append h (back c) (size h f) && ((n =? 1) || negb (wasteful E h (back c) (size h f))) && (size h f <=? kAllocationCost + size h (back c))) eqn:CA.
        + apply andb_prop in CA as [CA _]. apply andb_prop in CA as [CA _]. now apply in_place.
        + destruct (copy_step E EO h _ (back c) I PB) as (m & h1 & E1 & I1 & RN & D1 & DN); [lia|]. rewrite E1. unfold SetBack.
          assert (KE : keeps (plus F (cblocks c)) h h1) by (eapply fresh_keeps; eassumption).
          assert (CK1 : Cok h1 c) by (eapply Cok_keep; [|exact CK]; intros x HI; apply KE; now apply in_plus).
          destruct (set_back_st F PF h1 c m I1 CK1 N) as (ST4 & KE4 & _).
          eexists _, _, _. split; [reflexivity|]. split; [exact ST4|]. split; [reflexivity|]. split; [|eapply keeps_trans; eapply keeps_F; eassumption].
          cbn [SetBack_keep with_blocks cblocks]. rewrite (keeps_flat _ h1 _ _ KE4) by (intros x HI; now apply in_plus). rewrite flat_app, flat_one, DN, app_nil_r, (content_flat h c N), (flat_split_back h c N). f_equal.
          eapply keeps_flat; [exact KE|]. intros x HI. apply in_plus; [exact PF|now apply In_removelast]. }
    destruct (1 <? n) eqn:N1; [|apply unchanged; auto; discriminate].
    destruct (is_empty h f) eqn:EF; [apply unchanged; auto|]. apply is_empty_false in EF.
    destruct (wasteful E h f 0) eqn:WAF; [|apply unchanged; auto; discriminate]. apply WF in WAF; [|lia].
    destruct (can_append h (back c) (size h f)) eqn:CA; cbn [andb]; [destruct (negb (wasteful E h (back c) (size h f))); [now apply in_place|]|];
      (destruct (copy_step E EO h _ f I (F_plus _ _ _ Pf)) as (m & h1 & E1 & I1 & RN & D1 & DN); [lia|]; rewrite E1; apply pushed; auto).
Qed.
End A.

Lemma AppendBlocks_size share h c bs : csize (snd (AppendBlocks share h c bs)) = csize c. Proof. unfold AppendBlocks. destruct bs; reflexivity. Qed.
Lemma AppendBlocks_heap share h c bs : fst (AppendBlocks share h c bs) = if share then fold_left Ref bs h else h.
Proof. unfold AppendBlocks. destruct bs; [destruct share; reflexivity|reflexivity]. Qed.
Lemma content_of h c s : flat h (cblocks c) = s -> csize c = zlen s -> content h c = s.
Proof.
  intros FL SZ. destruct (cblocks c) eqn:EB; [|unfold content; now rewrite EB, FL]. rewrite (content_short h c EB). change (flat h []) with (@nil Z) in FL. subst s.
  unfold short_data. rewrite SZ. apply ztake_nonpos. change (zlen (@nil Z)) with 0. lia.
Qed.
Lemma Ok_of h c s : Cok h c -> flat h (cblocks c) = s -> csize c = zlen s -> Ok h c.
Proof.
  intros K FL SZ. constructor; [now rewrite (content_of h c s)| |exact K]. intros EB. rewrite EB in FL. change (flat h []) with (@nil Z) in FL. subst s. rewrite SZ. change (zlen (@nil Z)) with 0. unfold kMaxShortDataSize. lia.
Qed.

Section B.
Context (E : env) (EO : env_ok E).

(** [src] is another chain; [G] are the references of all others *)
Lemma AppendChain_ok share G h c src opt : (forall x, 0 <= G x) -> opt_ok opt -> Inv h (fun x => plus G (cblocks c) x + cnt x (cblocks src)) -> Ok h c -> Ok h src -> csize c + csize src <= SIZE_MAX ->
  exists h' c' src', AppendChain E share h c src opt = Some (h', c', src') /\ Inv h' (fun x => plus G (cblocks c') x + cnt x (cblocks src')) /\ Ok h' c' /\ Ok h' src' /\
    content h' c' = content h c ++ content h src /\ keeps G h h' /\ (share = true -> src' = src /\ content h' src = content h src).
Proof.
  intros PG OO I OK OS MS. unfold AppendChain. destruct (cblocks src) as [|f rest] eqn:EB.
  - assert (SS : content h src = short_data src) by now apply content_short.
    assert (I0 : Inv h (plus G (cblocks c))) by (eapply Inv_ext; [|exact I]; intros x; cbn [cnt]; lia).
    destruct (Append_ok E EO G PG h c (short_data src) opt OO I0 OK) as (h' & c' & E1 & I1 & OK1 & CT & KE); [rewrite <- SS, <- (ok_size _ _ OS); exact MS|].
    rewrite E1. exists h', c', src. split; [reflexivity|]. split; [eapply Inv_ext; [|exact I1]; intros x; rewrite EB; cbn [cnt]; lia|]. split; [exact OK1|]. split.
    + destruct OS as [S1 S2 S3]. constructor; [rewrite (content_short h' _ EB), <- SS; exact S1|exact S2|]. eapply Cok_keep; [|exact S3]. rewrite EB. easy.
    + split; [rewrite CT, SS; reflexivity|]. split; [exact KE|]. intros _. split; [reflexivity|]. rewrite !content_short by assumption. reflexivity.
  - unfold check. destruct (Z.leb_spec (csize src) (SIZE_MAX - csize c)); [|lia].
    set (F := fun x => G x + cnt x (f :: rest)).
    assert (PF : forall x, 0 <= F x) by (intros x; unfold F; pose proof (PG x); pose proof (cnt_nonneg x (f :: rest)); lia).
    assert (Ff : 0 < F f) by (unfold F; rewrite cnt_cons, one_same; pose proof (PG f); pose proof (cnt_nonneg f rest); lia).
    assert (FI : forall x, In x (f :: rest) -> 0 < F x) by (intros x HI; unfold F; apply cnt_in in HI; pose proof (PG x); lia).
    assert (FG : forall x, G x <= F x) by (intros x; unfold F; pose proof (cnt_nonneg x (f :: rest)); lia).
    assert (I0 : Inv h (plus F (cblocks c))) by (eapply Inv_ext; [|exact I]; intros x; unfold plus, F; lia).
    destruct (first_ok E EO F PF h c f (count src) opt OO (conj I0 (ok_offs _ _ OK)) OK Ff) as (h1 & c1 & skip & E1 & [I1 CK1] & SZ1 & FL1 & KE1).
    rewrite E1. cbv beta iota zeta.
    assert (CS : content h src = data h f ++ flat h rest) by (unfold content; rewrite EB; reflexivity).
    set (todo := if skip then rest else f :: rest).
    (* after skipping *)
    set (h2 := if skip && negb share then Unref h1 f else h1).
    set (F2 := if skip && negb share then (fun x => G x + cnt x rest) else F).
    assert (PF2 : forall x, 0 <= F2 x) by (intros x; unfold F2; destruct (skip && negb share); [pose proof (PG x); pose proof (cnt_nonneg x rest); lia|apply PF]).
    assert (S2 : Inv h2 (plus F2 (cblocks c1)) /\ keeps (plus F2 (cblocks c1)) h1 h2).
    { unfold h2, F2. destruct (skip && negb share); [|split; [exact I1|apply keeps_refl]]. apply Inv_Unref.
      - eapply Inv_ext; [|exact I1]. intros x. unfold plus, F. rewrite cnt_cons. lia.
      - intros x. pose proof (PG x). pose proof (cnt_nonneg x rest). unfold plus. pose proof (cnt_nonneg x (cblocks c1)). lia. }
    destruct S2 as [I2 KE2].
    assert (F2F : forall x, F2 x <= F x) by (intros x; unfold F2, F; destruct (skip && negb share); [rewrite cnt_cons; pose proof (one_nonneg f x); lia|lia]).
    assert (GF2 : forall x, G x <= F2 x) by (intros x; unfold F2; destruct (skip && negb share); [pose proof (cnt_nonneg x rest); lia|apply FG]).
    assert (TD : forall x, In x todo -> 0 < F2 x).
    { intros x HI. unfold todo in HI. unfold F2. destruct skip; cbn [andb].
      - destruct (negb share); [pose proof (PG x); apply cnt_in in HI; lia|]. apply FI. now right.
      - apply FI. exact HI. }
    assert (KE12 : keeps F2 h h2). { eapply keeps_trans; [eapply keeps_le; [exact F2F|exact KE1]|eapply keeps_F; exact KE2]. }
    assert (CK2 : Cok h2 (with_size c1 (csize c1 + csize src))). { apply Cok_size. eapply Cok_keep; [|exact CK1]. intros x HI. apply KE2. now apply in_plus. }
    assert (FL2 : flat h2 (cblocks c1) = flat h1 (cblocks c1)). { eapply keeps_flat; [exact KE2|]. intros x HI. now apply in_plus. }
    fold todo. fold h2. set (c2 := with_size c1 (csize c1 + csize src)) in *.
    pose proof (AppendBlocks_blocks share h2 c2 todo) as AB. pose proof (AppendBlocks_size share h2 c2 todo) as AS. pose proof (AppendBlocks_heap share h2 c2 todo) as AH. pose proof (Cok_AppendBlocks share h2 c2 todo CK2) as AC.
    destruct (AppendBlocks share h2 c2 todo) as [h3 c3]. cbn [fst snd] in *.
    assert (D3 : forall x, data h3 x = data h2 x).
    { intros x. rewrite AH. destruct share; [|reflexivity]. apply (Inv_Refs todo h2 _ I2). intros y HI. apply F_plus. auto. }
    assert (I3 : Inv h3 (fun x => plus F2 (cblocks c1) x + if share then cnt x todo else 0)).
    { rewrite AH. destruct share; [apply Inv_Refs; [exact I2|]; intros y HI; apply F_plus; auto|]. eapply Inv_ext; [|exact I2]. intros x. lia. }
    assert (FL3 : flat h3 (cblocks c3) = content h c ++ content h src).
    { rewrite AB. rewrite (flat_keep h2 h3) by (intros; apply D3). rewrite flat_app. cbn [c2 with_size cblocks]. rewrite FL2, FL1, CS.
      rewrite (keeps_flat _ h h2 todo KE12) by exact TD. unfold todo. destruct skip; [now rewrite <- app_assoc|]. rewrite app_nil_r, flat_cons. reflexivity. }
    assert (SZ3 : csize c3 = zlen (content h c ++ content h src)).
    { rewrite AS. cbn [c2 with_size csize]. rewrite SZ1, zlen_app, (ok_size _ _ OK), (ok_size _ _ OS). reflexivity. }
    assert (CK3 : Cok h3 c3) by (eapply Cok_keep; [|exact AC]; intros; apply D3).
    assert (KEG : keeps G h h3). { intros x P. rewrite D3. apply KE12. specialize (GF2 x). lia. }
    destruct share.
    + (* shared: [src] is as it was *)
      assert (F2E : forall x, F2 x = F x) by (intros x; unfold F2; destruct skip; reflexivity). exists h3, c3, src. split; [reflexivity|].
      assert (KS : forall x, In x (cblocks src) -> data h3 x = data h x). { intros x HI. rewrite D3. apply KE12. rewrite F2E. apply FI. now rewrite <- EB. }
      assert (CC : content h3 src = content h src) by (unfold content; rewrite EB; apply flat_keep; intros x HI; apply KS; now rewrite EB).
      split; [|split; [|split; [|split; [|split; [exact KEG|]]]]].
      * eapply Inv_ext; [|exact I3]. intros x. cbv beta. unfold plus. rewrite F2E. unfold F. rewrite AB, EB. cbn [c2 with_size cblocks]. rewrite cnt_app. lia.
      * eapply Ok_of; eassumption.
      * destruct OS as [S1 S2' S3]. constructor; [rewrite CC; exact S1|exact S2'|]. eapply Cok_keep; [exact KS|exact S3].
      * now apply content_of.
      * intros _. split; [reflexivity|exact CC].
    + exists h3, c3, (with_size (with_blocks src [] (match coffs src with Some _ => Some [] | None => None end)) 0). split; [reflexivity|].
      split; [|split; [|split; [|split; [|split; [exact KEG|discriminate]]]]].
      * eapply Inv_ext; [|exact I3]. intros x. cbv beta iota. unfold plus. rewrite AB. cbn [c2 with_size with_blocks cblocks cnt]. rewrite cnt_app. subst F2 todo F. destruct skip; cbn [andb negb]; cbv beta; lia.
      * eapply Ok_of; eassumption.
      * eapply (Ok_of _ _ []); [|reflexivity|reflexivity]. apply Cok_nil; [reflexivity|]. cbn [with_size with_blocks coffs]. destruct (coffs src); auto.
      * now apply content_of.
Qed.
End B.
