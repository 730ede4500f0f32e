(** Appending a block to a Chain. *)
From Verif Require Import Base.Bytes Model.BufferSizer Model.Chain Proof.ChainHeap Proof.ChainSteps Proof.ChainAppend Proof.ChainAppendChain.

Definition enough (opt : options) (n : Z) : Prop := 0 < n \/ size_hint opt = None /\ 0 < min_block_size opt.
Lemma new_capacity' c repl mn rec opt : opt_ok opt -> 0 <= repl <= csize c -> 0 <= mn -> repl + mn <= kMaxCapacity -> enough opt (repl + mn) ->
  exists k, NewBlockCapacity c repl mn rec opt = Some k /\ repl + mn <= k /\ 0 < k <= kMaxCapacity.
Proof.
  intros OO R M S0 [S1|[H1 H2]]; [now apply new_capacity|]. destruct (Z.eq_dec (repl + mn) 0) as [Q|Q]; [|apply new_capacity; auto; lia].
  destruct OO as [O1 O2 O3]. unfold NewBlockCapacity, check. destruct (Z.leb_spec repl (csize c)); [|lia]. destruct (Z.leb_spec mn (kMaxCapacity - repl)); [|lia].
  eexists. split; [reflexivity|]. unfold ApplySizeHint. rewrite H1. unfold UnsignedClamp, SaturatingSub. consts. lia.
Qed.

Section R.
Context (E : env) (EO : env_ok E) (G : Z -> Z) (PG : forall x, 0 <= G x).

Definition withb (b : Z) (x : Z) : Z := G x + one b x.
Lemma withb_pos b x : 0 <= withb b x. Proof. unfold withb. pose proof (PG x). pose proof (one_nonneg b x). lia. Qed.
Lemma withb_b b : 0 < withb b b. Proof. unfold withb. rewrite one_same. pose proof (PG b). lia. Qed.
Lemma withb_G b x : G x <= withb b x. Proof. unfold withb. pose proof (one_nonneg b x). lia. Qed.
Lemma withb_inv h b l : Inv h (fun x => plus G l x + one b x) -> Inv h (plus (withb b) l).
Proof. intros I. eapply Inv_ext; [|exact I]. intros x. unfold plus, withb. lia. Qed.
Lemma inv_withb h b l : Inv h (plus (withb b) l) -> Inv h (fun x => plus G l x + one b x).
Proof. intros I. eapply Inv_ext; [|exact I]. intros x. unfold plus, withb. lia. Qed.

(** the data were copied, the reference to [b] is dropped *)
Lemma copied_fin h h1 c1 b n s : St (withb b) h1 c1 -> n = zlen s -> flat h1 (cblocks c1) = s -> keeps (withb b) h h1 -> Post G h (Unref h1 b) (with_size c1 n) s.
Proof.
  intros [I K] SZ FL KE. destruct (Inv_Unref h1 (plus G (cblocks c1)) b) as (I1 & K1).
  - eapply Inv_ext; [|exact I]. intros x. unfold plus, withb. lia.
  - intros x. pose proof (PG x). pose proof (plus_le G (cblocks c1) x). lia.
  - assert (KK : forall x, In x (cblocks c1) -> data (Unref h1 b) x = data h1 x) by (intros x HI; apply K1; now apply in_plus).
    assert (F1 : flat (Unref h1 b) (cblocks c1) = s) by (rewrite <- FL; now apply flat_keep).
    split; [exact I1|]. split; [|split].
    + eapply Ok_of; [apply Cok_size; eapply Cok_keep; [exact KK|exact K]|exact F1|exact SZ].
    + apply content_of; assumption.
    + eapply keeps_trans; [eapply keeps_le; [apply withb_G|exact KE]|eapply keeps_F; exact K1].
Qed.
(** the block itself was appended *)
Lemma passed_fin h h1 c1 s n : St G h1 c1 -> n = zlen s -> flat h1 (cblocks c1) = s -> keeps G h h1 -> Post G h h1 (with_size c1 n) s.
Proof.
  intros [I K] SZ FL KE. split; [exact I|]. split; [|split; [|exact KE]].
  - eapply Ok_of; [apply Cok_size; exact K|exact FL|exact SZ].
  - apply content_of; assumption.
Qed.

Lemma pushed_fin h h1 c1 b s n : Inv h1 (plus (withb b) (cblocks c1)) -> Cok h1 c1 -> n = zlen s + size h1 b -> flat h1 (cblocks c1) = s -> keeps (withb b) h h1 -> Post G h h1 (PushBack h1 (with_size c1 n) b) (s ++ data h b).
Proof.
  intros I K SZ FL KE. assert (DB : data h1 b = data h b) by (apply KE; apply withb_b).
  change (PushBack h1 (with_size c1 n) b) with (with_size (PushBack h1 c1 b) n). apply passed_fin.
  - apply push_back_st; [exact PG|now apply inv_withb|exact K].
  - rewrite zlen_app, <- DB. exact SZ.
  - cbn [PushBack with_blocks cblocks]. rewrite flat_app, flat_one, FL, DB. reflexivity.
  - eapply keeps_le; [apply withb_G|exact KE].
Qed.

Lemma AppendRawBlock_ok h c b opt : opt_ok opt -> enough opt (size h b) -> Inv h (fun x => plus G (cblocks c) x + one b x) -> Ok h c -> csize c + size h b <= SIZE_MAX ->
  exists h' c', AppendRawBlock E h c b opt = Some (h', c') /\ Post G h h' c' (content h c ++ data h b).
Proof.
  intros OO EN I0 OK MS. pose proof (withb_inv _ _ _ I0) as I. pose proof (withb_pos b) as PF. pose proof (withb_b b) as Pb. set (F := withb b) in *.
  pose proof OK as [SZ SH CK]. assert (ST : St F h c) by (split; assumption). pose proof (size_nonneg h b) as SBN. assert (SN : 0 <= csize c) by (rewrite SZ; apply zlen_nonneg).
  assert (SS : csize c + size h b = zlen (content h c ++ data h b)) by (rewrite zlen_app, SZ; reflexivity).
  unfold AppendRawBlock. unfold check at 1. destruct (Z.leb_spec (size h b) (SIZE_MAX - csize c)); [|lia].
  destruct (cblocks c) as [|b0 bs0] eqn:EB.
  - rewrite <- EB in I0, I. specialize (SH eq_refl). pose proof SZ as SZ1. rewrite (content_short h c EB) in SZ1. consts.
    destruct (Z.eqb_spec (csize c) 0) as [Q|Q]; cbn [negb].
    + eexists _, _. split; [reflexivity|]. apply pushed_fin; [exact I|exact CK|lia| |apply keeps_refl].
      rewrite (content_short h c EB), EB. unfold short_data. rewrite Q, ztake_nonpos by lia. reflexivity.
    + destruct (tiny h b) eqn:TI.
      * apply tiny_size in TI. unfold check. destruct (Z.leb_spec (size h b) (kMaxCapacity - csize c)); [|lia].
        destruct (new_capacity c (csize c) (Z.max (size h b) (16 - csize c)) 0 opt OO) as (k & EK & KL & KB); [lia|lia|lia|lia|]. rewrite EK.
        destruct (new_short E EO _ h k (short_data c) I) as (m & h1 & h2 & k' & E1 & E2 & KB' & AB2 & I2 & RN & D2 & DN); [lia|lia|]. rewrite E1. change kMaxShortDataSize with 16 in E2. rewrite E2.
        assert (Nf : b <> m) by (intros ->; pose proof (F_plus F (cblocks c) m Pb); lia).
        destruct (AB_append h2 (fun z => plus F (cblocks c) z + one m z) m k' (data h2 b) I2) as (h3 & E3 & I3 & _ & D3 & D3'); [rewrite one_same; lia|assumption| |].
        { unfold size. rewrite DN, D2 by assumption. fold (size h b). lia. }
        rewrite E3. destruct (short_block F PF h c b m h3 true ST EB I3 RN) as (h' & c' & sk & EQ & ST1 & SZ' & FL1 & KE1).
        { intros z NZ. rewrite D3', D2 by assumption. reflexivity. }
        { rewrite D3, DN, D2 by assumption. reflexivity. }
        injection EQ as <- <- <-. eexists _, _. split; [reflexivity|]. apply copied_fin; [exact ST1| |exact FL1|exact KE1].
        cbn [PushBack with_blocks csize]. unfold size. rewrite (KE1 b Pb). exact SS.
      * destruct (new_short E EO _ h 16 (short_data c) I) as (m & h1 & h2 & k' & E1 & E2 & KB' & AB2 & I2 & RN & D2 & DN); [lia|lia|]. change kMaxShortDataSize with 16 in E2. rewrite E1, E2.
        destruct (short_block F PF h c b m h2 false ST EB I2 RN D2) as (h' & c' & sk & EQ & [I4 K4] & SZ' & FL1 & KE1); [now rewrite app_nil_r|].
        injection EQ as <- <- <-. rewrite app_nil_r in FL1. eexists _, _. split; [reflexivity|]. apply pushed_fin; [exact I4|exact K4| |exact FL1|exact KE1].
        cbn [PushBack with_blocks csize]. rewrite SZ. reflexivity.
  - rewrite <- EB in I0, I. assert (N : cblocks c <> []) by (rewrite EB; discriminate). clear b0 bs0 EB SH. pose proof (in_plus F _ _ PF (back_in c N)) as PB.
    pose proof (size_nonneg h (back c)). assert (FC : flat h (cblocks c) = content h c) by (symmetry; now apply content_flat).
    assert (SBC : size h (back c) <= csize c). { rewrite SZ, (content_flat h c N), (flat_split_back h c N), zlen_app. fold (size h (back c)). pose proof (zlen_nonneg (flat h (removelast (cblocks c)))). lia. }
    assert (INP : can_append h (back c) (size h b) = true -> exists h' c', (let* h' := Block_Append h (back c) (data h b) in Some (Unref h' b, with_size c (csize c + size h b))) = Some (h', c') /\ Post G h h' c' (content h c ++ data h b)).
    { intros CA. destruct (in_place F PF h c b ST N Pb CA) as (h' & c' & sk & EQ & ST1 & SZ' & FL1 & KE1). destruct (Block_Append h (back c) (data h b)) as [h3|]; [|discriminate].
      injection EQ as <- <- <-. eexists _, _. split; [reflexivity|]. now apply copied_fin. }
    destruct (tiny h (back c) && tiny h b) eqn:TI.
    { apply andb_prop in TI as [T1 T2]. apply tiny_size in T1, T2. destruct (can_append h (back c) (size h b)) eqn:CA; [now apply INP|].
      consts. unfold check. destruct (Z.leb_spec (size h b) (kMaxCapacity - size h (back c))); [|lia].
      destruct (new_capacity' c (size h (back c)) (size h b) 0 opt OO) as (k & EK & KL & KB); [lia|lia|lia|destruct EN as [EN|EN]; [left; lia|right; exact EN]|]. rewrite EK.
      destruct (merged_back E EO F PF h c b k ST N Pb KB KL) as (h' & c' & sk & EQ & ST1 & SZ' & FL1 & KE1).
      destruct (new_two E EO _ h k (back c) b I PB (F_plus _ _ _ Pb) KB KL) as (m & h1 & h2 & h3 & E1 & E2 & E3 & _ & RN & D3 & _). rewrite E1, E2, E3 in *.
      unfold SetBack in EQ |- *. injection EQ as <- <- <-.
      eexists _, _. split; [reflexivity|]. change (SetBack_keep (with_size c (csize c + size h3 b)) m) with (with_size (SetBack_keep c m) (csize c + size h3 b)).
      change (back (with_size c (csize c + size h3 b))) with (back c). apply copied_fin; [exact ST1| |exact FL1|exact KE1].
      rewrite <- SS. f_equal. unfold size. rewrite D3; [reflexivity|]. intros ->. pose proof (F_plus F (cblocks c) m Pb). lia. }
    destruct (is_empty h (back c)) eqn:EM.
    { eexists _, _. split; [reflexivity|]. change (SetBack_keep (with_size c (csize c + size h b)) b) with (with_size (SetBack_keep c b) (csize c + size h b)).
      change (back (with_size c (csize c + size h b))) with (back c). destruct (set_back_st G PG h c b I0 CK N) as (ST4 & KE4 & _). apply passed_fin; [exact ST4|exact SS| |eapply keeps_F; exact KE4].
      cbn [SetBack_keep with_blocks cblocks]. rewrite (keeps_flat _ h _ _ KE4) by (intros x HI; now apply in_plus). rewrite flat_app, flat_one, (content_flat h c N), (flat_split_back h c N), (is_empty_spec _ _ EM), app_nil_r. reflexivity. }
    apply is_empty_false in EM.
    destruct (wasteful E h (back c) 0) eqn:WAS.
    2:{ eexists _, _. split; [reflexivity|]. apply pushed_fin; [exact I|exact CK|rewrite SZ; reflexivity|exact FC|apply keeps_refl]. }
    destruct (can_append h (back c) (size h b)) eqn:CA; cbn [andb]; [destruct (size h b <=? kAllocationCost + size h (back c)); [now apply INP|]|];
    (pose proof (wasteful_size E EO _ h _ 0 I PB ltac:(lia) WAS) as WS;
    destruct (copy_step E EO h _ (back c) I PB) as (m & h1 & E1 & I1 & RN & D1 & DN); [lia|]; rewrite E1; unfold SetBack;
    assert (KE : keeps (plus F (cblocks c)) h h1) by (eapply fresh_keeps; eassumption);
    assert (CK1 : Cok h1 c) by (eapply Cok_keep; [|exact CK]; intros x HI; apply KE; now apply in_plus);
    destruct (set_back_st F PF h1 c m I1 CK1 N) as (ST4 & KE4 & _);
    eexists _, _; split; [reflexivity|]; apply pushed_fin; [apply ST4|apply ST4|cbn [SetBack_keep with_blocks csize]; rewrite SZ; reflexivity| |eapply keeps_trans; eapply keeps_F; eassumption];
    cbn [SetBack_keep with_blocks cblocks]; rewrite (keeps_flat _ h1 _ _ KE4) by (intros x HI; now apply in_plus); rewrite flat_app, flat_one, DN, (content_flat h c N), (flat_split_back h c N); f_equal;
    eapply keeps_flat; [exact KE|]; intros x HI; apply in_plus; [exact PF|now apply In_removelast]).
Qed.
End R.
