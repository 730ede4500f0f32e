(** Clearing, assigning, destroying and flattening a Chain; reading it. *)
From Verif Require Import Base.Bytes Model.BufferSizer Model.Chain Proof.ChainHeap Proof.ChainSteps Proof.ChainAppend Proof.ChainAppendChain Proof.ChainRaw Proof.ChainPrepend Proof.ChainPrependChain Proof.ChainRemove.

Section A.
Context (F : Z -> Z) (PF : forall x, 0 <= F x).

Lemma Destroy_ok h c : Inv h (plus F (cblocks c)) -> Inv (Destroy h c) F /\ keeps F h (Destroy h c).
Proof. intros I. now apply Inv_UnrefBlocks. Qed.

Lemma Clear_ok h c : Inv h (plus F (cblocks c)) -> Ok h c -> exists h' c', Clear h c = (h', c') /\ Post F h h' c' [].
Proof.
  intros I OK. pose proof OK as [SZ SH CK]. unfold Clear. destruct (cblocks (with_size c 0)) as [|f rest] eqn:EB; cbn [with_size cblocks] in EB.
  - eexists _, _. split; [reflexivity|]. assert (CT : content h (with_size c 0) = []) by (rewrite content_short by assumption; unfold short_data; cbn [with_size csize]; apply ztake_nonpos; lia).
    split; [exact I|]. split; [|split; [exact CT|apply keeps_refl]]. constructor; [rewrite CT; reflexivity|intros _; cbn [with_size csize]; unfold kMaxShortDataSize; lia|exact CK].
  - assert (N : cblocks c <> []) by (rewrite EB; discriminate). pose proof (front_in c N) as FI. assert (FR : front c = f) by (unfold front; now rewrite EB). rewrite FR in FI.
    assert (Pf : 0 < plus F (cblocks c) f) by now apply in_plus.
    unfold TryClear. destruct (is_mutable h f) eqn:MU.
    + destruct (mutable_unique _ _ _ I Pf MU) as (k & C & R1 & _ & _). destruct (inv_live _ _ _ I Pf) as (_ & _ & KO). unfold block_ok in KO. rewrite C in KO. pose proof (zlen_nonneg (dat (blk h f))).
      destruct (write_step h _ f k (sb (blk h f)) [] I Pf C R1) as (A1 & A2 & A3 & _); [lia|change (zlen (@nil Z)) with 0; lia|].
      rewrite <- FR in MU. destruct (own_front F h c PF I N MU) as [F0 NI]. rewrite FR in F0, NI.
      set (h2 := set_blk h f (with_dat (blk h f) (sb (blk h f)) [])) in *. clearbody h2.
      destruct (Inv_UnrefBlocks rest h2 (plus F [f])) as (I3 & K3).
      { eapply Inv_ext; [|exact A1]. intros x. unfold plus. rewrite EB, cnt_cons, cnt_one. lia. } { intros x. pose proof (PF x). pose proof (plus_le F [f] x). lia. }
      eexists _, _. split; [reflexivity|].
      assert (DF : data (UnrefBlocks h2 rest) f = []) by (rewrite K3 by (apply in_plus; [exact PF|now left]); exact A2).
      apply fin.
      * split; [exact I3|]. unfold Cok in *. cbn [with_blocks coffs cblocks with_size]. destruct (coffs c) as [l|]; cbn [option_map]; [|unfold count; cbn [with_blocks cblocks]; change (zlen [f]) with 1; lia].
        destruct CK as (o & R & ->). rewrite EB. cbn [offs_from hd]. exists o. split; [exact R|]. reflexivity.
      * reflexivity.
      * cbn [with_blocks cblocks]. rewrite flat_one. exact DF.
      * eapply keeps_trans; [|eapply keeps_F; exact K3]. intros x P. apply A3. intros ->. lia.
    + destruct (Inv_UnrefBlocks (f :: rest) h F) as (I3 & K3); [eapply Inv_ext; [|exact I]; intros x; unfold plus; rewrite EB; reflexivity|exact PF|].
      eexists _, _. split; [reflexivity|]. apply fin.
      * split; [eapply Inv_ext; [|exact I3]; intros x; unfold plus; cbn [with_blocks cblocks cnt]; lia|]. apply Cok_nil; [reflexivity|]. cbn [with_blocks coffs with_size]. destruct (coffs c); [now right|now left].
      * reflexivity.
      * reflexivity.
      * exact K3.
Qed.

(** [src] is another chain *)
Lemma Assign_ok h c src : Inv h (fun x => plus F (cblocks c) x + cnt x (cblocks src)) -> Ok h src ->
  exists h' c', Assign h c src = (h', c') /\ Inv h' (fun x => plus F (cblocks c') x + cnt x (cblocks src)) /\ Ok h' c' /\ Ok h' src /\ content h' c' = content h src /\ content h' src = content h src /\ keeps F h h'.
Proof.
  intros I OS. unfold Assign. destruct (Inv_UnrefBlocks (cblocks c) h (plus F (cblocks src))) as (I1 & K1).
  { eapply Inv_ext; [|exact I]. intros x. unfold plus. lia. } { intros x. pose proof (PF x). pose proof (plus_le F (cblocks src) x). lia. }
  set (h1 := UnrefBlocks h (cblocks c)) in *. clearbody h1.
  assert (KS : forall x, In x (cblocks src) -> data h1 x = data h x) by (intros x HI; apply K1; now apply in_plus).
  pose proof (content_keep h h1 src KS) as CS. pose proof (Ok_keep h h1 src KS OS) as OS1. pose proof OS1 as [S1 S2 S3].
  destruct (cblocks src) as [|b0 bs0] eqn:EB.
  - eexists _, _. split; [reflexivity|].
    match goal with |- context [content h1 ?cc] => assert (CT : content h1 cc = content h src) end.
    { rewrite <- CS, content_short, (content_short h1 src EB) by reflexivity. reflexivity. }
    split; [eapply Inv_ext; [|exact I1]; intros x; unfold plus; cbn [cblocks cnt]; lia|]. split; [|split; [exact OS1|split; [exact CT|split; [exact CS|eapply keeps_F; exact K1]]]].
    constructor; [rewrite CT, <- CS; exact S1|intros _; exact (S2 eq_refl)|]. apply Cok_nil; [reflexivity|now left].
  - rewrite <- EB in *. assert (N : cblocks src <> []) by (rewrite EB; discriminate). clear b0 bs0 EB.
    set (c1 := with_size (with_blocks c [] (option_map (fun _ => []) (coffs c))) (csize src)).
    assert (CK1 : Cok h1 c1) by (apply Cok_nil; [reflexivity|]; cbn [c1 with_size with_blocks coffs]; destruct (coffs c); [now right|now left]).
    destruct (AppendBlocks true h1 c1 (cblocks src)) as [h2 c2] eqn:EA.
    pose proof (AppendBlocks_blocks true h1 c1 (cblocks src)) as AB. pose proof (AppendBlocks_size true h1 c1 (cblocks src)) as AS. pose proof (AppendBlocks_heap true h1 c1 (cblocks src)) as AH. pose proof (Cok_AppendBlocks true h1 c1 (cblocks src) CK1) as AC.
    rewrite EA in *. cbn [fst snd] in *. cbn [c1 with_size with_blocks cblocks csize app] in AB, AS.
    destruct (Inv_Refs (cblocks src) h1 _ I1) as (I2 & D2); [intros x HI; now apply in_plus|]. rewrite <- AH in I2, D2.
    assert (CT : flat h2 (cblocks c2) = content h src) by (rewrite AB, <- CS, (content_flat h1 src N); apply flat_keep; intros; apply D2).
    assert (SZ : csize c2 = zlen (content h src)) by (rewrite AS, S1, CS; reflexivity).
    exists h2, c2. split; [reflexivity|]. split; [eapply Inv_ext; [|exact I2]; intros x; cbv beta; unfold plus; rewrite AB; lia|]. split; [|split; [|split; [|split]]].
    + eapply Ok_of; [eapply Cok_keep; [|exact AC]; intros; apply D2|exact CT|exact SZ].
    + apply (Ok_keep h1); [intros; apply D2|exact OS1].
    + now apply content_of.
    + rewrite (content_keep h1); [exact CS|]. intros; apply D2.
    + intros x P. rewrite D2. apply K1. pose proof (plus_le F (cblocks src) x). lia.
Qed.
End A.

Section B.
Context (E : env) (EO : env_ok E) (F : Z -> Z) (PF : forall x, 0 <= F x).

Lemma append_all_ok bs : forall h R n k, Inv h R -> 0 < R n -> AB h n k -> (forall x, In x bs -> x <> n) -> size h n + zlen (flat h bs) <= k ->
  exists h', append_all h n bs = Some h' /\ Inv h' R /\ data h' n = data h n ++ flat h bs /\ (forall x, x <> n -> data h' x = data h x).
Proof.
  induction bs as [|b bs IH]; intros h R n k I P A NI L; cbn [append_all].
  - exists h. split; [reflexivity|]. split; [exact I|]. split; [now rewrite app_nil_r|reflexivity].
  - rewrite flat_cons, zlen_app in L. pose proof (zlen_nonneg (flat h bs)).
    destruct (AB_append h R n k (data h b) I P A) as (h1 & E1 & I1 & A1 & D1 & D1'); [lia|]. rewrite E1.
    assert (FK : flat h1 bs = flat h bs) by (apply flat_keep; intros x HI; apply D1'; apply NI; now right).
    destruct (IH h1 R n k I1 P A1) as (h2 & E2 & I2 & D2 & D2').
    + intros x HI. apply NI. now right.
    + unfold size. rewrite D1, zlen_app, FK. fold (size h n). lia.
    + exists h2. split; [exact E2|]. split; [exact I2|]. split; [rewrite D2, D1, FK, flat_cons, app_assoc; reflexivity|]. intros x N. rewrite D2', D1' by assumption. reflexivity.
Qed.

Lemma Flatten_ok h c : Inv h (plus F (cblocks c)) -> Ok h c -> csize c <= kMaxCapacity ->
  exists h' c', Flatten E h c = Some (h', c') /\ Post F h h' c' (content h c) /\ count c' <= 1.
Proof.
  intros I OK CM. pose proof OK as [SZ SH CK]. unfold Flatten. destruct (Z.leb_spec (count c) 1) as [C1|C1].
  { exists h, c. split; [reflexivity|]. split; [|exact C1]. split; [exact I|]. split; [exact OK|]. split; [reflexivity|apply keeps_refl]. }
  assert (N : cblocks c <> []) by (intros Q; unfold count in C1; rewrite Q in C1; change (zlen (@nil Z)) with 0 in C1; lia).
  rewrite (content_flat h c N) in *.
  assert (S1 : exists h1 c1, (if is_empty h (front c) then (Unref h (front c), PopFront c) else (h, c)) = (h1, c1) /\ St F h1 c1 /\ csize c1 = csize c /\ flat h1 (cblocks c1) = flat h (cblocks c) /\ keeps F h h1 /\ cblocks c1 <> []).
  { destruct (is_empty h (front c)) eqn:EM; [|exists h, c; split; [reflexivity|]; split; [now split|]; split; [reflexivity|]; split; [reflexivity|]; split; [apply keeps_refl|exact N]].
    destruct (pop_front_st F PF h c (conj I CK) N) as (ST1 & KE). eexists _, _. split; [reflexivity|]. split; [exact ST1|]. split; [reflexivity|]. split; [|split; [eapply keeps_F; exact KE|]].
    - cbn [PopFront with_blocks cblocks]. rewrite (keeps_flat _ h _ _ KE) by (intros x HI; now apply in_plus). rewrite (flat_split_front h c N), (is_empty_spec _ _ EM). reflexivity.
    - cbn [PopFront with_blocks cblocks]. intros Q. unfold count in C1. rewrite (split_front c N), Q, zlen_one in C1. lia. }
  destruct S1 as (h1 & c1 & -> & ST1 & SZ1 & FL1 & KE1 & N1).
  destruct (Z.eqb_spec (count c1) 1) as [Q1|Q1]; [exists h1, c1; split; [reflexivity|]; split; [apply fin; auto; lia|lia]|].
  assert (S2 : exists h2 c2, (if is_empty h1 (back c1) then (Unref h1 (back c1), PopBack c1) else (h1, c1)) = (h2, c2) /\ St F h2 c2 /\ csize c2 = csize c /\ flat h2 (cblocks c2) = flat h (cblocks c) /\ keeps F h h2 /\ cblocks c2 <> []).
  { destruct (is_empty h1 (back c1)) eqn:EM; [|exists h1, c1; repeat (split; [assumption || reflexivity|]); assumption].
    destruct (pop_back_st F PF h1 c1 ST1 N1) as (ST2 & KE). eexists _, _. split; [reflexivity|]. split; [exact ST2|]. split; [exact SZ1|]. split; [|split; [eapply keeps_trans; [exact KE1|eapply keeps_F; exact KE]|]].
    - cbn [PopBack with_blocks cblocks]. rewrite (keeps_flat _ h1 _ _ KE) by (intros x HI; now apply in_plus). rewrite <- FL1, (flat_split_back h1 c1 N1), (is_empty_spec _ _ EM), app_nil_r. reflexivity.
    - cbn [PopBack with_blocks cblocks]. intros Q. unfold count in Q1. rewrite (split_back c1 N1), Q in Q1. change (zlen ([] ++ [back c1])) with 1 in Q1. lia. }
  destruct S2 as (h2 & c2 & -> & [I2 K2] & SZ2 & FL2 & KE2 & N2).
  destruct (Z.eqb_spec (count c2) 1) as [Q2|Q2]; [exists h2, c2; split; [reflexivity|]; split; [apply fin; auto; [now split|lia]|lia]|].
  pose proof (zlen_nonneg (flat h (cblocks c))).
  destruct (new_capacity' c2 0 (csize c2) (csize c2) {| size_hint := None; min_block_size := kDefaultMinBlockSize; max_block_size := kDefaultMaxBlockSize |}) as (k & EK & KL & KB).
  { constructor; cbn [min_block_size max_block_size size_hint]; [unfold kDefaultMinBlockSize; lia|unfold kDefaultMaxBlockSize; lia|discriminate]. } { lia. } { lia. } { lia. } { right. split; [reflexivity|]. cbn [min_block_size]. unfold kDefaultMinBlockSize. lia. }
  rewrite EK. destruct (new_step E EO h2 _ k I2 KB) as (m & h3 & k' & E3 & I3 & D3 & RN & _ & DN & KB' & A3 & _ & _). rewrite E3.
  assert (NI : forall x, In x (cblocks c2) -> x <> m) by (intros x HI ->; pose proof (in_plus F _ _ PF HI); lia).
  assert (FL3 : flat h3 (cblocks c2) = flat h2 (cblocks c2)) by (apply flat_keep; intros x HI; apply D3; auto).
  destruct (append_all_ok (cblocks c2) h3 _ m k' I3) as (h4 & E4 & I4 & D4 & D4').
  { rewrite one_same. lia. } { exact A3. } { exact NI. } { unfold size. rewrite DN, FL3, FL2. change (zlen (@nil Z)) with 0. lia. }
  rewrite E4. rewrite DN, FL3, FL2 in D4. cbn [app] in D4.
  destruct (Inv_UnrefBlocks (cblocks c2) h4 (plus F [m])) as (I5 & K5).
  { eapply Inv_ext; [|exact I4]. intros x. unfold plus. rewrite cnt_one. lia. } { intros x. pose proof (PF x). pose proof (plus_le F [m] x). lia. }
  set (h5 := UnrefBlocks h4 (cblocks c2)) in *. clearbody h5.
  assert (D5 : data h5 m = flat h (cblocks c)) by (rewrite K5 by (apply in_plus; [exact PF|now left]); exact D4).
  eexists _, _. split; [reflexivity|]. split.
  - apply fin.
    + apply push_back_st; [exact PF|eapply Inv_ext; [|exact I5]; intros x; unfold plus; cbn [with_blocks cblocks cnt]; unfold one; lia|]. apply Cok_nil; [reflexivity|]. cbn [with_blocks coffs]. destruct (coffs c2); [now right|now left].
    + cbn [PushBack with_blocks csize]. lia.
    + cbn [PushBack with_blocks cblocks app]. rewrite flat_one. exact D5.
    + intros x P. rewrite K5 by (pose proof (plus_le F [m] x); lia). assert (NM : x <> m). { intros ->. pose proof (plus_le F (cblocks c2) m). lia. } rewrite D4', D3 by exact NM. now apply KE2.
  - unfold count. cbn [PushBack with_blocks cblocks app]. change (zlen [m]) with 1. lia.
Qed.
End B.
