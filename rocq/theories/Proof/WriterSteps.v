(** Seeking, writing out the buffer, and getting a new one. *)
From Verif Require Import Base.Bytes Spec.PosixFile Model.BufferSizer Model.ByteFill Model.BufferedWriter Proof.PosixProof Proof.BufferSizerProof Proof.ByteFillProof Proof.WriterLemmas.
Notation file w := (f_content (w_fd w)).
Notation kMax := kMaxFdPosition.

Lemma Fail_eq w : ok w = true -> w_start_pos w <= 2 ^ 64 - 1 - w_lim w -> Fail w = Some (false, set_buf (w_buf w) 0 0 (set_state true (w_open w) w)).
Proof.
  intros O%ok_iff L. destruct O as [O F]. unfold Fail. rewrite bind_get, F, bind_modify. rewrite O. rewrite bind_bind. unfold get_pos. rewrite bind_bind, bind_get, bind_bind.
  rewrite bind_assert by (ws; lia). rewrite !bind_ret, bind_modify. reflexivity.
Qed.
Lemma SeekInternal_ok delta p w : core w -> ok w = true -> link delta w -> empty_buffer w -> 0 <= p <= kMax -> (f_append (w_fd w) = true -> zlen (file w) = p) ->
  exists b w', SeekInternal p w = Some (b, w') /\ b = ok w' /\ core w' /\ frame w w' /\ empty_buffer w' /\ file w' = file w /\ w_sizer w' = w_sizer w /\ w_random w' = w_random w /\
    (ok w' = true -> w_start_pos w' = p /\ link 0 w') /\ (ok w' = false -> w_start_pos w' = w_start_pos w) /\ (nofail w -> nofail w' /\ ok w' = true).
Proof.
  intros I1 O L (EC & EL & EW) P AP. unfold SeekInternal. rewrite bind_get. rewrite bind_assert by (rewrite EL, O; reflexivity).
  destruct (w_independent w) eqn:IN.
  - rewrite bind_modify. eexists true, _. split; [reflexivity|]. set (w' := set_start_pos p w). split; [symmetry; exact O|].
    assert (C2 : core w'). { clear - I1 P EL. assert (p + w_lim w <= 2 ^ 64 - 1) by (rewrite EL; unfold kMax in *; lia). unfold core in *. destruct I1. constructor; unfold w', used, ok in *; ws; auto. cbn [ws_BeginRun ws_base_pos]. lia. }
    split; [exact C2|]. split; [constructor; auto|]. split; [repeat split; assumption|]. repeat (split; [reflexivity|]).
    split; [|split; [intros X; change (ok w' = true) in O; congruence|intros NF; split; [exact NF|exact O]]].
    intros _. split; [reflexivity|]. constructor; unfold w'; ws; try lia; try congruence; intros S1; (split; [reflexivity|]); [exact (proj2 (l_ind _ _ L S1))|exact (proj2 (l_rand _ _ L S1))].
  - destruct (sys_seek_spec p (w_fd w)) as (b & f' & E & C & A & P0 & P1 & N). rewrite (bind_syscall _ _ _ _ _ E). destruct b; cbn [negb]; cbv iota.
    + rewrite bind_modify. eexists true, _. split; [reflexivity|]. set (w' := set_start_pos p (set_fd f' w)). split; [symmetry; exact O|].
      assert (C2 : core w'). { clear - I1 P EL C. assert (p + w_lim w <= 2 ^ 64 - 1) by (rewrite EL; unfold kMax in *; lia). unfold core in *. destruct I1. constructor; unfold w', used, ok in *; ws; ws_in i_size; rewrite ?C; auto. cbn [ws_BeginRun ws_base_pos]. lia. }
      split; [exact C2|]. split; [constructor; auto|]. split; [repeat split; assumption|]. split; [exact C|]. repeat (split; [reflexivity|]).
      split; [|split; [intros X; change (ok w' = true) in O; congruence|intros NF; split; [exact (proj2 (N NF))|exact O]]].
      intros _. split; [reflexivity|]. constructor; unfold w'; ws; rewrite ?A, ?C; try lia; try congruence.
      intros S1. split; [reflexivity|]. exact (proj2 (l_rand _ _ L S1)).
    + set (w1 := set_fd f' w). set (s := ws_BeginRun (w_start_pos w1) (w_sizer w1)).
      assert (I2 : inv (set_sizer s w1)). { unfold core in I1. clear - I1 C. destruct I1. constructor; unfold s, w1, used, ok in *; ws; ws_in i_size; rewrite ?C; auto. }
      (* Fail() does not look at the sizer *)
      destruct (Fail_ok (set_sizer s w1) I2 O) as (w2 & E' & I3 & FR & O3 & FI & ST & LI & CA & RA & WR & SI).
      assert (X : Fail w1 = Some (false, set_sizer (w_sizer w1) w2)).
      { clear - E' I2 O. change (ok w1 = true) in O. pose proof (i_lim _ I2) as Q. ws_in Q. rewrite (Fail_eq (set_sizer s w1) O) in E' by (ws; lia). injection E' as <-.
        rewrite (Fail_eq w1 O) by lia. reflexivity. }
      exists false, (set_sizer (w_sizer w1) w2). split; [exact X|]. split; [symmetry; exact O3|].
      assert (WS : w_start_pos w2 = w_start_pos w) by exact ST.
      split.
      { clear - I3 SI WS. unfold core. pose proof (i_sizer _ I3) as Q. rewrite SI in Q. ws_in Q. destruct I3. constructor; unfold s, w1, used, ok in *; ws; auto. cbn [ws_BeginRun ws_base_pos]. lia. }
      split. { destruct FR as [F1 F2 F3 F4 F5]. constructor; ws; auto. rewrite F2. exact A. }
      split. { split; [pose proof (i_cur _ I3); ws; lia|]. split; [exact LI|]. ws. rewrite WR. exact EW. }
      split; [ws; rewrite FI; exact C|]. split; [reflexivity|]. split; [exact RA|]. split; [intros Y; change (ok w2 = true) in Y; congruence|]. split; [intros _; exact WS|].
      intros NF. destruct (N NF). discriminate.
Qed.
Lemma get_pos_ok w : inv w -> get_pos w = Some (w_start_pos w + w_cur w, w).
Proof. intros I1. unfold get_pos. rewrite bind_get. pose proof (i_lim w I1). rewrite bind_assert by lia. reflexivity. Qed.
Lemma same_empty w w' : same_buffer w w' -> empty_buffer w -> empty_buffer w'.
Proof. intros (_ & _ & A & B & C & _) (D & E & F). repeat split; congruence. Qed.

(** The outcome of SeekBehindBuffer() on a good writer *)
Lemma SeekBehindBuffer_ok delta p w : inv w -> ok w = true -> link delta w -> empty_buffer w -> 0 <= p < 2 ^ 64 -> p <> w_start_pos w ->
  exists b w', SeekBehindBuffer p w = Some (b, w') /\ core w' /\ frame w w' /\ empty_buffer w' /\ file w' = file w /\ w_sizer w' = w_sizer w /\
    (ok w' = true -> link delta w' /\ w_random w' = Some true /\ (b, w_start_pos w') = if (p <? w_start_pos w) || (p <=? zlen (file w)) then (true, p) else (false, zlen (file w))) /\
    (ok w' = false -> b = false /\ w_start_pos w' = w_start_pos w) /\ (nofail w -> nofail w' /\ (seekable w -> ok w' = true /\ seekable w')).
Proof.
  intros I1 O L EB P NE. pose proof EB as (EC & EL & EW). unfold SeekBehindBuffer. rewrite (bind_some _ _ _ _ _ (get_pos_ok w I1)), bind_get.
  rewrite bind_assert by (rewrite EL; lia).
  destruct (SupportsRandomAccess_ok delta w I1 O L) as (r & w1 & E1 & M1 & SB & RT & RF & RN & NOK). rewrite (bind_some _ _ _ _ _ E1), bind_get.
  pose proof (m_inv _ _ _ _ _ M1) as I2. pose proof (m_frame _ _ _ _ _ M1) as FR1. destruct r; cbn [negb]; cbv iota.
  - destruct (RT eq_refl) as [O1 R1]. rewrite O1. cbn [negb]; cbv iota. destruct (m_view _ _ _ _ _ M1 O1) as [L1 _]. specialize (SB O1).
    assert (EB1 : empty_buffer w1) by exact (same_empty _ _ SB EB). destruct SB as (B1 & _ & _ & _ & _ & B2 & B3). rewrite B1.
    destruct (link_0 delta w1 L1) as [-> AP]; [unfold seekable; congruence|].
    assert (FIN : forall w2 q r, core w2 -> ok w2 = true -> link 0 w2 -> empty_buffer w2 -> frame w1 w2 -> file w2 = file w1 -> w_sizer w2 = w_sizer w1 -> w_random w2 = w_random w1 -> w_start_pos w2 = w_start_pos w1 ->
      (nofail w1 -> nofail w2) -> 0 <= q <= kMax -> (r, q) = (if (p <? w_start_pos w) || (p <=? zlen (file w)) then (true, p) else (false, zlen (file w))) ->
      exists b w', (c <- SeekInternal q; if r then ret c else ret false) w2 = Some (b, w') /\ core w' /\ frame w w' /\ empty_buffer w' /\ file w' = file w /\ w_sizer w' = w_sizer w /\
       (ok w' = true -> link 0 w' /\ w_random w' = Some true /\ (b, w_start_pos w') = if (p <? w_start_pos w) || (p <=? zlen (file w)) then (true, p) else (false, zlen (file w))) /\
       (ok w' = false -> b = false /\ w_start_pos w' = w_start_pos w) /\ (nofail w -> nofail w' /\ (seekable w -> ok w' = true /\ seekable w'))).
    { intros w2 q r C2 O2 L2 EB2 F2 FI2 S2 R2 ST2 N2 Q2 EQ.
      assert (AP2 : f_append (w_fd w2) = true -> zlen (file w2) = q) by (intros X; rewrite (fr_app _ _ F2) in X; congruence).
      destruct (SeekInternal_ok 0 q w2 C2 O2 L2 EB2 Q2 AP2) as (b & w3 & E3 & B & C3 & F3 & EB3 & FI3 & S3 & R3 & OK3 & NO3 & NF3).
      rewrite (bind_some _ _ _ _ _ E3). exists (r && b), w3. split; [destruct r; reflexivity|]. split; [exact C3|]. split; [exact (frame_trans _ _ _ FR1 (frame_trans _ _ _ F2 F3))|].
      split; [exact EB3|]. split; [congruence|]. split; [congruence|]. split; [|split].
      - intros O3. destruct (OK3 O3) as [ST3 L3]. split; [exact L3|]. split; [congruence|]. rewrite <- EQ, ST3. rewrite B, O3, andb_true_r. reflexivity.
      - intros O3. split; [rewrite B, O3; apply andb_false_r|rewrite (NO3 O3); congruence].
      - intros NF. destruct (m_nofail _ _ _ _ _ M1 NF) as [NF1 _]. destruct (NF3 (N2 NF1)) as [X Y]. split; [exact X|]. intros _. split; [exact Y|]. unfold seekable. congruence. }
    pose proof (i_start w1 I2) as IS. pose proof (i_size w1 I2) as IZ. rewrite B1 in IS. rewrite B3 in IZ.
    assert (RT2 : forall (m : M bool) v, bind m (fun c => ret c) v = m v) by (intros m v; unfold bind, ret; destruct (m v) as [[]|]; reflexivity).
    destruct (w_start_pos w <? p) eqn:CMP.
    + destruct (sys_size_spec (w_fd w1)) as (sz & f' & E & C & A & PP & SZ & N). rewrite (bind_syscall _ _ _ _ _ E). set (w2 := set_fd f' w1).
      assert (I3 : inv w2) by (apply inv_set_fd; [exact I2|rewrite C; apply I2]).
      assert (L2 : link 0 w2) by (destruct L1; constructor; unfold w2; ws; rewrite ?A, ?C, ?PP; auto).
      assert (F2 : frame w1 w2) by (constructor; unfold w2; ws; auto). assert (EB2 : empty_buffer w2) by exact EB1.
      destruct sz as [z|].
      * specialize (SZ z eq_refl). rewrite B3 in SZ. subst z. destruct (zlen (file w) <? p) eqn:Q.
        -- apply (FIN w2 (zlen (file w)) false); auto; try exact O1; [apply core_of_inv; exact I3|intros NF; exact (proj2 (N NF))|pose proof (zlen_nonneg (file w)); lia|].
           replace (p <? w_start_pos w) with false by lia. replace (p <=? zlen (file w)) with false by lia. reflexivity.
        -- rewrite <- RT2. apply (FIN w2 p true); auto; try exact O1; [apply core_of_inv; exact I3|intros NF; exact (proj2 (N NF))|lia|].
           replace (p <=? zlen (file w)) with true by lia. rewrite orb_true_r. reflexivity.
      * destruct (Fail_ok w2 I3 O1) as (w' & E' & I4 & FR & O3 & FI & ST & LI & CA & RA & WR & SI). exists false, w'. split; [exact E'|].
        split; [apply core_of_inv; exact I4|]. split; [exact (frame_trans _ _ _ FR1 (frame_trans _ _ _ F2 FR))|].
        split; [split; [pose proof (i_cur _ I4); lia|split; [exact LI|rewrite WR; apply EB2]]|]. split; [rewrite FI; unfold w2; ws; congruence|]. split; [rewrite SI; exact B2|].
        split; [congruence|]. split; [intros _; split; [reflexivity|rewrite ST; exact B1]|]. intros NF. destruct (N (proj1 (m_nofail _ _ _ _ _ M1 NF))). congruence.
    + rewrite <- RT2. apply (FIN w1 p true); auto; [apply core_of_inv; exact I2|apply frame_refl|lia|]. replace (p <? w_start_pos w) with true by lia. reflexivity.
  - destruct (ok w1) eqn:O1.
    + destruct (Fail_ok w1 I2 O1) as (w' & E' & I4 & FR & O3 & FI & ST & LI & CA & RA & WR & SI). exists false, w'. split; [exact E'|]. specialize (SB eq_refl).
      assert (EB1 : empty_buffer w1) by exact (same_empty _ _ SB EB). destruct SB as (B1 & _ & _ & _ & _ & B2 & B3).
      split; [apply core_of_inv; exact I4|]. split; [exact (frame_trans _ _ _ FR1 FR)|].
      split; [split; [pose proof (i_cur _ I4); lia|split; [exact LI|rewrite WR; apply EB1]]|]. split; [congruence|]. split; [congruence|].
      split; [congruence|]. split; [intros _; split; [reflexivity|congruence]|].
      intros NF. destruct (m_nofail _ _ _ _ _ M1 NF) as [NF1 _]. split; [unfold nofail; rewrite CA; exact NF1|]. intros SK. specialize (RN NF SK). discriminate.
    + destruct (NOK eq_refl) as (N1 & N2 & N3 & N4). exists false, w1. split; [reflexivity|]. split; [apply core_of_inv; exact I2|]. split; [exact FR1|].
      split; [pose proof (i_notok w1 I2 O1); pose proof (i_cur w1 I2); repeat split; try lia; congruence|]. split; [exact N4|]. split; [exact N3|].
      split; [congruence|]. split; [auto|]. intros NF. destruct (m_nofail _ _ _ _ _ M1 NF) as [NF1 _]. split; [exact NF1|]. intros SK. specialize (RN NF SK). discriminate.
Qed.
Definition emptied (w : writer) : writer := set_written 0 (set_buf [] 0 0 w).
Lemma take_buffer_ok w : inv w -> take_buffer w = Some ((data w, w_start_pos w + w_cur w), emptied w).
Proof.
  intros I1. unfold take_buffer. rewrite bind_get. pose proof (i_buf w I1) as B. unfold used in B. rewrite bind_assert by lia.
  rewrite (bind_some _ _ _ _ _ (get_pos_ok w I1)), !bind_modify. reflexivity.
Qed.
Lemma emptied_inv w : inv w -> inv (emptied w).
Proof.
  intros I1. pose proof (i_lim w I1). pose proof (i_cur w I1). destruct I1. constructor; unfold emptied, used, ok in *; ws; auto; try lia. change (zlen (@nil Z)) with 0. lia.
Qed.
Lemma emptied_empty w : empty_buffer (emptied w).
Proof. repeat split. Qed.
Lemma emptied_link delta w : link delta w -> link delta (emptied w).
Proof. intros []. constructor; unfold emptied; ws; auto. Qed.
Lemma emptied_frame w : frame w (emptied w).
Proof. constructor; auto. Qed.
Lemma nofail_emptied w : nofail (emptied w) = nofail w.
Proof. reflexivity. Qed.

(** What happens when the data of the buffer are written and the position is restored: the view is not changed. *)
Lemma sync_ok delta w : inv w -> ok w = true -> link delta w -> data w <> [] ->
  exists b w1, WriteInternal (data w) (emptied w) = Some (b, w1) /\ b = ok w1 /\ inv w1 /\ frame w w1 /\ empty_buffer w1 /\ w_sizer w1 = w_sizer w /\ w_random w1 = w_random w /\
    (b = false -> moves True delta w [] w1) /\
    (b = true -> link delta w1 /\ w_start_pos w1 = w_start_pos w + used w /\ file w1 = fst (view delta w)) /\
    (b = true -> w_start_pos w1 = w_start_pos w + w_cur w -> moves True delta w [] w1) /\
    (b = true -> w_start_pos w1 <> w_start_pos w + w_cur w ->
     exists c w2, SeekBehindBuffer (w_start_pos w + w_cur w) w1 = Some (c, w2) /\ c = ok w2 /\ moves True delta w [] w2 /\ empty_buffer w2 /\ w_sizer w2 = w_sizer w /\
       (ok w2 = true -> w_start_pos w2 = w_start_pos w + w_cur w)).
Proof.
  intros I1 O L D. pose proof (emptied_inv w I1) as I2. pose proof (emptied_link delta w L) as L2. pose proof (emptied_empty w) as EB2.
  destruct (WriteInternal_ok delta (data w) (emptied w) I2 O L2 EB2 D) as (b & w1 & E & B & M1 & EB1 & S1 & ST1 & R1).
  pose proof (view_empty delta (emptied w) EB2) as VE. change (file (emptied w)) with (file w) in VE. change (w_start_pos (emptied w)) with (w_start_pos w) in VE.
  pose proof (m_inv _ _ _ _ _ M1) as I3. pose proof (frame_trans _ _ _ (emptied_frame w) (m_frame _ _ _ _ _ M1)) as FR. pose proof (data_len w I1) as DL.
  assert (EO : eof delta w -> eof delta (emptied w)) by (intros [X Y]; split; [reflexivity|exact Y]).
  assert (NF : nofail w -> nofail w1 /\ (seekable w -> seekable w1)) by (intros N; exact (m_nofail _ _ _ _ _ M1 N)).
  assert (LV : nofail w -> fits delta w -> ok w1 = true).
  { intros N F. apply (m_live _ _ _ _ _ M1 Logic.I N).
    - unfold fits, used, emptied. ws. unfold fits in F. pose proof (data_len w I1) as Q. pose proof (zlen_nonneg (data w)). rewrite DL in H. lia.
    - rewrite VE, DL. cbn [snd]. exact F. }
  assert (PF : eof delta w -> (exists t, fst (view delta w) ++ [] = file w1 ++ t) /\ zlen (file w) <= zlen (file w1)).
  { intros X. destruct (m_eof _ _ _ _ _ M1 (EO X)) as (_ & (t & T) & Z1). rewrite VE in T. cbn [fst] in T. destruct (view_eof delta w I1 X) as [Q _]. rewrite Q, app_nil_r. split; [exists t; exact T|exact Z1]. }
  assert (VW : b = true -> link delta w1 /\ w_start_pos w1 = w_start_pos w + used w /\ file w1 = fst (view delta w)).
  { intros ->. symmetry in B. destruct (m_view _ _ _ _ _ M1 B) as [L1 V]. split; [exact L1|]. rewrite (view_empty delta w1 EB1), VE, DL in V. cbn [fst snd] in V.
    injection V as V1 V2. split; [exact V2|]. exact V1. }
  exists b, w1. split; [exact E|]. split; [exact B|]. split; [exact I3|]. split; [exact FR|]. split; [exact EB1|]. split; [exact S1|]. split; [exact R1|].
  split; [|split; [exact VW|split]].
  - intros ->. symmetry in B. apply moves_failed; auto; dz. intros _ N F _. specialize (LV N F). congruence.
  - intros -> ST. symmetry in B. destruct (VW eq_refl) as (L1 & V1 & V2). constructor; auto; dz.
    + intros _. split; [exact L1|]. rewrite (view_empty delta w1 EB1), V2, ST, write_at_nil. change (zlen (@nil Z)) with 0. rewrite Z.add_0_r. reflexivity.
    + intros X. split; [intros _|exact (PF X)]. exact (proj1 (m_eof _ _ _ _ _ M1 (EO X)) B).
    + intros _ N F _. split; [exact B|]. destruct EB1 as (C1 & C2 & C3). unfold fits, used in *. rewrite C1, C3. rewrite V1. lia.
  - intros -> ST. symmetry in B. destruct (VW eq_refl) as (L1 & V1 & V2).
    (* the cursor was moved back, so random access is supported *)
    assert (W : w_cur w < w_written w) by (unfold used in V1; lia). pose proof (i_cur w I1) as IC. assert (RD : w_random w = Some true) by (apply (i_rand w I1); lia).
    assert (R2 : w_random w1 = Some true) by (rewrite R1; exact RD). pose proof (i_start w I1) as IS. pose proof (i_start w1 I3) as IS1. pose proof (i_base w I1) as IB.
    assert (U : used w = w_written w) by (unfold used; lia).
    destruct (SeekBehindBuffer_ok delta (w_start_pos w + w_cur w) w1 I3 B L1 EB1) as (c & w2 & E2 & C2 & F2 & EB3 & FI2 & S2 & OK2 & NO2 & NF2); [unfold kMax in *; lia|lia|].
    replace (w_start_pos w + w_cur w <? w_start_pos w1) with true in OK2 by lia. cbn [orb] in OK2.
    assert (I4 : inv w2). { apply inv_of_core; [exact C2|]. rewrite S2, S1. change (w_sizer (emptied w)) with (w_sizer w). destruct (ok w2) eqn:O2; [destruct (OK2 eq_refl) as (_ & _ & Q); injection Q as _ ->; lia|destruct (NO2 eq_refl) as [_ ->]; lia]. }
    exists c, w2. split; [exact E2|]. split; [destruct (ok w2) eqn:O2; [destruct (OK2 eq_refl) as (_ & _ & Q); congruence|apply (NO2 eq_refl)]|].
    split; [|split; [exact EB3|split; [rewrite S2; exact S1|intros O2; destruct (OK2 O2) as (_ & _ & Q); congruence]]].
    assert (NEO : ~ eof delta w) by (intros [X _]; lia).
    constructor; auto; dz.
    + exact (frame_trans _ _ _ FR F2).
    + intros O2. destruct (OK2 O2) as (L3 & _ & Q). injection Q as Q1 Q2. split; [exact L3|]. rewrite (view_empty delta w2 EB3), FI2, V2, Q2, write_at_nil. change (zlen (@nil Z)) with 0. rewrite Z.add_0_r. reflexivity.
    + intros X. contradiction.
    + intros N. destruct (NF N) as [N1 N2]. destruct (NF2 N1) as [N3 N4]. split; [exact N3|]. intros SK. apply N4. exact (N2 SK).
    + intros _ N F _. destruct (NF2 (proj1 (NF N))) as [_ N4]. destruct N4 as [O2 _]; [unfold seekable; congruence|]. split; [exact O2|].
      destruct (OK2 O2) as (_ & _ & Q). injection Q as Q1 Q2. destruct EB3 as (X1 & X2 & X3). unfold fits in *. unfold used in *. rewrite X1, X3, Q2. lia.
Qed.
Lemma SyncBuffer_ok delta w : inv w -> ok w = true -> link delta w ->
  exists b w', SyncBuffer w = Some (b, w') /\ b = ok w' /\ moves True delta w [] w' /\ empty_buffer w' /\ w_sizer w' = w_sizer w /\ (ok w' = true -> w_start_pos w' = w_start_pos w + w_cur w).
Proof.
  intros I1 O L. unfold SyncBuffer. rewrite (bind_some _ _ _ _ _ (take_buffer_ok w I1)). cbv beta iota. destruct (data w) as [|z l] eqn:D.
  - exists true, (emptied w). split; [reflexivity|]. split; [symmetry; exact O|]. assert (U : used w = 0) by (rewrite <- (data_len w I1), D; reflexivity).
    pose proof (i_cur w I1) as IC. pose proof (i_written w I1) as IW. unfold used in U. assert (C0 : w_cur w = 0) by lia. assert (W0 : w_written w = 0) by lia.
    split; [|split; [apply emptied_empty|split; [reflexivity|intros _; unfold emptied; ws; lia]]].
    constructor; auto using emptied_inv, emptied_frame; dz.
    + intros _. split; [apply emptied_link; exact L|]. rewrite (view_empty delta _ (emptied_empty w)), write_at_nil. unfold view. rewrite D, write_at_nil, C0. cbn [fst snd]. change (zlen (@nil Z)) with 0. rewrite !Z.add_0_r. reflexivity.
    + intros X. split; [intros _; split; [reflexivity|exact (proj2 X)]|]. unfold view. rewrite D, write_at_nil. cbn [fst]. split; [exists []; reflexivity|apply Z.le_refl].
    + intros _ N F _. split; [exact O|]. unfold fits, used in *. unfold emptied. ws. lia.
  - rewrite <- D. rewrite bind_get. change (ok (emptied w)) with (ok w). rewrite O. cbn [negb]. cbv iota. assert (ND : data w <> []) by (rewrite D; discriminate).
    destruct (sync_ok delta w I1 O L ND) as (b & w1 & E & B & I3 & FR & EB1 & S1 & R1 & MF & _ & MT & MS). rewrite (bind_some _ _ _ _ _ E). destruct b; cbn [negb]; cbv iota.
    + rewrite bind_get. destruct (w_start_pos w1 =? w_start_pos w + w_cur w) eqn:Q; cbn [negb]; cbv iota.
      * exists true, w1. split; [reflexivity|]. split; [exact B|]. split; [apply MT; [reflexivity|lia]|]. split; [exact EB1|]. split; [exact S1|]. intros _. lia.
      * destruct (MS eq_refl) as (c & w2 & E2 & C & M2 & EB2 & S2 & ST2); [lia|]. exists c, w2. split; [exact E2|]. split; [exact C|]. split; [exact M2|]. split; [exact EB2|]. split; [exact S2|exact ST2].
    + exists false, w1. split; [reflexivity|]. split; [exact B|]. split; [apply MF; reflexivity|]. split; [exact EB1|]. split; [exact S1|]. congruence.
Qed.
