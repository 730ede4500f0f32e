(** Truncate(), SupportsRandomAccess(), Fail(), Close(), and changing the limit. *)
From Verif Require Import Base.Bytes Spec.PosixFile Model.BufferSizer Model.BufferedWriter.
From Verif Require Import Proof.PosixProof Proof.WriterLemmas Proof.WriterSteps Proof.WriterCalls Proof.WriterDead Proof.WriterSeeks Proof.WriterMore Proof.WriterKeep.
From Verif Require Import Model.LimitingWriter Spec.LimitingWriterSpec Proof.LimWriterLemmas Proof.LimWriterRel Proof.LimWriterCalls Proof.LimWriterMore Proof.LimWriterOther.
Import BufferedWriter(writer, call).
Import BufferedWriterSpec(bytes_of, call_ok).
Notation file w := (f_content (w_fd w)).
Notation kMax := kMaxFdPosition.

(** Closing the original writer *)
Lemma Close_total w : inv w -> (ok w = true -> exists delta, link delta w) -> exists b w', BufferedWriter.Close w = Some (b, w') /\ inv w' /\ ok w' = false /\ (b = false -> closing w' = None).
Proof.
  intros I1 L1. destruct (ok w) eqn:O.
  - destruct (L1 eq_refl) as [delta L2]. destruct (Close_ok delta w I1 O L2) as (b & w' & E & I2 & OP & FA & _). exists b, w'. split; [exact E|]. split; [exact I2|]. split; [unfold ok; rewrite OP; reflexivity|].
    intros ->. unfold closing, BufferedWriter.Close. rewrite WriterLemmas.bind_get, OP, FA. reflexivity.
  - destruct (w_open w) eqn:OP.
    + destruct (dead_Close w I1 O OP) as (w' & E & D & WR). eexists _, _. split; [exact E|]. split; [apply set_closed; [exact (d_inv _ _ D)|exact WR|exact (i_notok _ (d_inv _ _ D) (d_ok _ _ D))]|]. split; [reflexivity|].
      intros _. unfold closing, BufferedWriter.Close. rewrite WriterLemmas.bind_get. ws. cbn [negb]; cbv iota. unfold BufferedWriter.ret. rewrite (d_failed _ _ D); [reflexivity|]. unfold ok in O. rewrite OP in O. destruct (w_failed w); [reflexivity|discriminate].
    + exists (negb (w_failed w)), w. split; [unfold BufferedWriter.Close; rewrite WriterLemmas.bind_get, OP; reflexivity|]. split; [exact I1|]. split; [exact O|]. intros X. unfold closing, BufferedWriter.Close. rewrite WriterLemmas.bind_get, OP. cbn [negb]; cbv iota. unfold BufferedWriter.ret. rewrite X. reflexivity.
Qed.
Lemma fin_Close delta c p w b w' : fin delta c p w -> BufferedWriter.Close w = Some (b, w') -> fin delta c p w' /\ (finlive delta w -> finlive delta w' /\ b = true).
Proof.
  intros [I1 V C] E. destruct (ok w) eqn:O.
  - destruct (V eq_refl) as [L1 VW]. destruct (Close_ok delta w I1 O L1) as (b' & w1 & E' & I2 & OP & FA & _ & FI & _ & LV). rewrite E in E'. injection E' as <- <-.
    assert (O' : ok w' = false) by (unfold ok; rewrite OP; reflexivity).
    split; [constructor; [exact I2|rewrite O'; discriminate|]|].
    + intros _ F. rewrite FA in F. destruct b; [|discriminate]. destruct (FI eq_refl) as [F1 F2]. rewrite VW in F1, F2. cbn [fst snd] in F1, F2. split; [exact F1|]. pose proof (i_notok _ I2 O'). pose proof (i_cur _ I2). lia.
    + intros [(_ & NF & FT)|[X _]]; [|apply ok_iff in O; destruct O; congruence]. specialize (LV NF FT). subst b. split; [right; split; [exact OP|exact FA]|reflexivity].
  - destruct (w_open w) eqn:OP.
    + destruct (dead_Close w I1 O OP) as (w1 & E' & D & WR). rewrite E in E'. injection E' as -> ->. assert (F : w_failed w = true) by (unfold ok in O; rewrite OP in O; destruct (w_failed w); [reflexivity|discriminate]).
      split; [constructor|].
      * apply set_closed; [exact (d_inv _ _ D)|exact WR|exact (i_notok _ (d_inv _ _ D) (d_ok _ _ D))].
      * intros X. discriminate X.
      * intros _ X. cbn in X. rewrite (d_failed _ _ D F) in X. discriminate.
      * intros [(X & _)|[X _]]; congruence.
    + assert (Y : BufferedWriter.Close w = Some (negb (w_failed w), w)) by (unfold BufferedWriter.Close; rewrite WriterLemmas.bind_get, OP; reflexivity). rewrite E in Y. injection Y as -> ->.
      split; [constructor; auto; congruence|]. intros [(X & _)|[X Y]]; [congruence|]. split; [right; auto|]. rewrite Y. reflexivity.
Qed.
(** The last part of Close() *)
Definition close_tail (owning : bool) (pos : Z) : L bool :=
  modify (set_buffer true pos 0 0);;
  (if owning then closed <- on_dest BufferedWriter.Close; if negb closed then FailWithoutAnnotation else ret true else ret true);;
  l <- get;
  modify (set_lstate (l_failed l) false);; ret (negb (l_failed l)).
Lemma close_tail_ok pos l : inv (l_dest l) -> (ok (l_dest l) = true -> exists delta, link delta (l_dest l)) -> 0 <= pos <= l_max_pos l -> l_max_pos l < 2 ^ 64 ->
  exists b l', close_tail (l_owning l) pos l = Some (b, l') /\ bad l' /\ opts l l' /\
    (if l_owning l then exists cb, BufferedWriter.Close (l_dest l) = Some (cb, l_dest l') /\ b = negb (l_failed l) && cb /\ (cb = false -> closing (l_dest l') = None) else l_dest l' = l_dest l /\ b = negb (l_failed l)).
Proof.
  intros I1 L1 P M. unfold close_tail. cbv [bind modify get ret]. lcbn. destruct (l_owning l) eqn:OW.
  - destruct (Close_total _ I1 L1) as (cb & w' & E & I2 & O2 & CN). unfold on_dest. lcbn. rewrite E. destruct cb; cbn [negb].
    + eexists _, _. split; [reflexivity|]. split; [|split; [split; lcbn; auto|]].
      * constructor; lcbn; auto; rewrite O2; discriminate.
      * exists true. lcbn. split; [reflexivity|]. split; [rewrite andb_true_r; reflexivity|discriminate].
    + unfold FailWithoutAnnotation. cbv [bind modify get ret]. lcbn. destruct (l_failed l) eqn:F; eexists _, _; (split; [reflexivity|]); (split; [|split; [split; lcbn; auto|]]).
      1, 3: constructor; lcbn; auto; rewrite O2; discriminate.
      1, 2: exists false; lcbn; rewrite ?F; split; [reflexivity|]; split; [reflexivity|intros _; exact (CN eq_refl)].
  - eexists _, _. split; [reflexivity|]. split; [|split; [split; lcbn; auto|]].
    + constructor; lcbn; auto.
    + lcbn. auto.
Qed.
Lemma Close_tail_eq l : l_open l = true -> Close l =
  ((if lok l then SyncBuffer else ret true);;
   pos <- get_lpos; l <- get;
   (if l_exact l && (pos <? l_max_pos l) then annotate_dest;; FailWithoutAnnotation else ret true);;
   pos <- get_lpos; close_tail (l_owning l) pos) l.
Proof. intros OP. unfold Close. unfold bind at 1. unfold get at 1. cbv beta iota. rewrite OP. reflexivity. Qed.
Lemma FailWithoutAnnotation_ok l : exists l', FailWithoutAnnotation l = Some (false, l') /\ l_dest l' = l_dest l /\ opts l l' /\ l_failed l' = true /\ l_open l' = l_open l /\ l_start_pos l' = l_start_pos l /\ l_max_pos l' = l_max_pos l /\
  (l_failed l = true -> l' = l) /\ (l_failed l = false -> l_cur l' = 0 /\ l_lim l' = 0).
Proof.
  unfold FailWithoutAnnotation. cbv [bind get modify ret]. lcbn. destruct (l_failed l) eqn:F; eexists; (split; [reflexivity|]); lcbn; repeat split; auto; try discriminate.
Qed.

Section S.
  Variables (delta : Z) (random : bool).
  Notation rel := (rel delta).
  Notation live := (live delta random).
  Notation does := (does delta random).
  Notation post := (post delta random).
  Notation after := (after delta random).

  (** Bytes beyond the limit are forgotten. *)
  Definition cutl (l : limiter) : limiter := set_buffer (l_null l) (l_start_pos l) (l_cur l - (l_start_pos l + l_cur l - l_max_pos l)) (l_lim l) l.
  Definition cuts (s : state) : state := {| a_content := a_content s; a_pos := a_pos s; a_excess := []; a_limit := a_limit s; a_high := a_high s; a_ok := a_ok s; a_known := a_known s |}.
  Lemma cut_good l : good delta l -> l_max_pos l < l_start_pos l + l_cur l -> good delta (cutl l) /\ full (cutl l) = cutw l /\ cutw (cutl l) = cutw l.
  Proof.
    intros G H. pose proof (cutw_inv _ _ G) as I1. pose proof (g_max _ _ G). assert (FU : full (cutl l) = cutw l) by (unfold full, cutl, cutw; lcbn; f_equal; lia). split; [|split; [exact FU|unfold cutl, cutw; lcbn; f_equal; lia]].
    constructor; try (rewrite FU; exact I1); unfold cutl, lok; lcbn; apply G.
  Qed.
  Lemma cut_rel s l : rel s l -> l_max_pos l < l_start_pos l + l_cur l -> rel (cuts s) (cutl l) /\ (live l -> live (cutl l)).
  Proof.
    intros R H. destruct (cut_good l (r_good _ _ _ R) H) as (G & F1 & F2). split.
    - constructor; cbn [cuts a_content a_pos a_excess a_limit a_high a_ok a_known]; auto.
      + rewrite F1, (r_cut _ _ _ R), write_at_nil. change (zlen (@nil Z)) with 0. rewrite Z.add_0_r. reflexivity.
      + rewrite F2. exact (r_cut _ _ _ R).
      + exact (r_limit _ _ _ R).
      + exact (r_high _ _ _ R).
      + exact (r_pos _ _ _ R).
      + exact (r_bound _ _ _ R).
      + congruence.
      + exact (r_ok _ _ _ R).
      + exact (r_known _ _ _ R).
    - intros LV. pose proof (live_cut delta random _ _ R LV) as FT. destruct LV as (NF & _ & SK). split; [exact NF|]. split; [rewrite F1; exact FT|exact SK].
  Qed.
  Lemma does_Truncate n l : good delta l -> 0 <= n < 2 ^ 64 -> exists r l', lexec (LWriter (CTruncate n)) l = Some (r, l') /\ does (LWriter (CTruncate n)) l r l'.
  Proof.
    intros G N. cbn [lexec]. unfold Truncate. rewrite lbind_bind. unfold bind at 1. unfold get at 1. cbv beta iota. rewrite lbind_bind, lbind_assert by (pose proof (g_max _ _ G); lia). rewrite (g_ok _ _ G). cbn [negb]; cbv iota.
    rewrite lbind_bind, (lbind_some _ _ _ _ _ (good_get_lpos _ _ G)), lbind_bind. pose proof (good_cur _ _ G) as (C1 & C2 & C3). pose proof (g_max _ _ G) as GM.
    destruct (Z.le_gt_cases (l_start_pos l + l_cur l) (l_max_pos l)) as [H|H].
    - replace (l_max_pos l <? l_start_pos l + l_cur l) with false by lia. cbn [andb]. unfold bind at 1. unfold ret at 1. cbv iota. destruct (truncate_within delta random n l G H N) as (b & l' & E & D). rewrite (lbind_some _ _ _ _ _ E). eexists _, _. split; [reflexivity|exact D].
    - replace (l_max_pos l <? l_start_pos l + l_cur l) with true by lia. cbn [andb]. destruct (n <=? l_max_pos l) eqn:NL.
      + cbv zeta. rewrite lbind_bind, lbind_assert by lia. unfold bind at 1. unfold modify at 1. fold (cutl l). destruct (cut_good l G ltac:(lia)) as (G' & F1 & F2).
        destruct (truncate_within delta random n (cutl l) G' ltac:(unfold cutl; lcbn; lia) N) as (b & l' & E & SA & OPT & D). rewrite (lbind_some _ _ _ _ _ E). eexists _, _. split; [reflexivity|].
        split; [exact SA|]. split; [exact OPT|]. intros s R RQ. destruct (cut_rel s l R ltac:(lia)) as [R' LV]. pose proof (rel_excess _ _ _ R ltac:(lia)) as EX. pose proof (zlen_nonneg (a_excess s)).
        assert (RO : room delta (LWriter (CTruncate n)) s -> room delta (LWriter (CTruncate n)) (cuts s)).
        { unfold room, end_pos. cbn [cuts a_pos a_excess]. change (zlen (@nil Z)) with 0. intros X. clear - X H0. lia. }
        destruct (D _ R' RQ) as [(s' & ST & A)|(X1 & X2 & X3 & X4)].
        * left. exists s'. split.
          { cbn [lstep bytes_of] in ST |- *. cbn [cuts a_content a_pos a_excess a_limit] in ST. change (zlen (@nil Z)) with 0 in ST. cbn [Z.eqb negb] in ST. rewrite andb_false_r in ST. rewrite (r_limit _ _ _ R). replace (l_max_pos l <? n) with false by lia. cbn [andb]. rewrite <- (r_limit _ _ _ R). exact ST. }
          destruct A as [A1 A2 A3 A4]. constructor; auto.
          -- intros X Y. destruct (A3 X Y) as (B1 & B2 & B3). split; [exact B1|]. split; [intros Q0 R0; exact (B2 (LV Q0) (RO R0))|exact B3].
          -- intros X Y. destruct (A4 X Y) as (B1 & B2 & B3). split; [exact B1|]. split; [intros Q0 R0; exact (B2 (LV Q0) (RO R0))|exact B3].
        * right. split; [exact X1|]. split; [exact X2|]. split; [exact X3|]. intros (Q0 & R0 & MF). apply X4. split; [exact (LV Q0)|]. split; [exact (RO R0)|]. exact MF.
      + unfold bind at 1. unfold ret at 1. cbv iota. rewrite (lbind_some _ _ _ _ _ (with_dest_exceeded false _ _ _ G ltac:(lia))). eexists _, _. split; [reflexivity|]. apply does_exceeded; [exact G|lia|].
        intros s R E. cbn [lstep bytes_of]. rewrite (r_limit _ _ _ R). assert (0 < zlen (a_excess s)) by (destruct (a_excess s) as [|x e]; [congruence|]; rewrite zlen_cons; pose proof (zlen_nonneg e); lia).
        replace (l_max_pos l <? n) with true by lia. replace (zlen (a_excess s) =? 0) with false by lia. cbn [negb andb]. auto.
  Qed.
  (** SupportsRandomAccess() *)
  Lemma does_SRA l : good delta l -> exists r l', lexec (LWriter CSupportsRandomAccess) l = Some (r, l') /\ does (LWriter CSupportsRandomAccess) l r l'.
  Proof.
    intros G. cbn [lexec]. unfold SupportsRandomAccess. destruct (w_random (l_dest l)) as [x|] eqn:RN.
    { assert (E : BufferedWriter.SupportsRandomAccess (l_dest l) = Some (x, l_dest l)) by (unfold BufferedWriter.SupportsRandomAccess; rewrite WriterLemmas.bind_get, RN; reflexivity).
      rewrite (lbind_on_dest _ _ _ _ _ E). rewrite set_dest_id. eexists _, _. split; [reflexivity|]. apply does_id; auto. intros s R. cbn [lstep bytes_of]. eauto. }
    destruct (SupportsRandomAccess_ok delta (l_dest l) (g_inv0 _ _ G) (g_dest _ _ G) (g_link _ _ G)) as (b & w & E & M & SB & RT & _ & NS & _). rewrite (lbind_on_dest _ _ _ _ _ E). eexists _, _. split; [reflexivity|].
    assert (NF : nofail (l_dest l)) by (destruct (g_rand _ _ G) as [X|X]; [congruence|exact X]).
    assert (BT : b = true) by (apply (NS NF); unfold seekable; congruence). subst b. destruct (RT eq_refl) as [O RW]. specialize (SB O). destruct SB as (S1 & S2 & S3 & S4 & S5 & S6 & S7). destruct (m_view _ _ _ _ _ M O) as [L1 _].
    set (l' := set_dest w l).
    assert (V : forall d, view d (full l') = view d (full l) /\ view d (cutw l') = view d (cutw l)) by (intros d; unfold view, data, used, full, cutw, l'; lcbn; ws; rewrite S1, S2, S5, S7; auto).
    assert (I1 : inv (full l')).
    { pose proof (g_inv _ _ G) as I0. pose proof (m_inv _ _ _ _ _ M) as IW. unfold full in I0 |- *. constructor; unfold used, l'; lcbn; ws; try (apply IW).
      - pose proof (i_cur _ I0) as X. ws_in X. rewrite S4. exact X.
      - pose proof (i_buf _ I0) as X. unfold used in X. ws_in X. rewrite S2, S5. exact X. }
    assert (G' : good delta l').
    { constructor; try exact I1; unfold l', lok; lcbn; auto; try (rewrite ?S1, ?S4; apply G).
      - exact (m_inv _ _ _ _ _ M).
      - left. congruence. }
    split; [exact (good_safe _ _ G')|]. split; [split; reflexivity|]. intros s R _. left. exists s. split; [cbn [lstep bytes_of]; eauto|]. constructor.
    - rewrite (g_ok _ _ G'). exact (r_ok _ _ _ R).
    - auto.
    - intros _ _. split; [|split; [|discriminate]].
      + constructor; try (apply R); try exact G'.
        * rewrite (proj1 (V delta)). apply R.
        * rewrite (proj2 (V delta)). apply R.
        * unfold l'. lcbn. rewrite S1, S5. apply R.
      + intros (_ & FT & SK) _. destruct (m_nofail _ _ _ _ _ M NF) as [NF' SK']. split; [exact NF'|]. split; [|intros X; apply SK', SK, X]. unfold fits, used, full, l' in *. lcbn. ws. ws_in FT. rewrite S1, S5. exact FT.
    - intros _ X. rewrite (g_ok _ _ G') in X. discriminate.
  Qed.
  (** Fail() *)
  Lemma Fail_good l : good delta l -> exists l', Fail l = Some (false, l') /\ bad l' /\ opts l l' /\ l_dest l' = cutw l /\ l_max_pos l' = l_max_pos l.
  Proof.
    intros G. unfold Fail. unfold bind at 1. unfold get at 1. cbv beta iota. destruct (good_open _ _ G) as [OP FA]. rewrite FA. unfold bind at 1. unfold modify at 1. cbv beta iota. rewrite OP. set (l1 := set_lstate true true l).
    pose proof (good_cur _ _ G) as (C1 & C2 & C3). pose proof (g_max _ _ G) as GM. pose proof (g_max64 _ _ G) as M64. pose proof (g_lim _ _ G) as GL. pose proof (good_max0 _ _ G) as M0. pose proof (cutw_inv _ _ G) as CI.
    destruct (Z.le_gt_cases (l_start_pos l + l_cur l) (l_max_pos l)) as [H|H].
    - assert (SY : SyncBuffer l1 = Some (true, set_dest (full l) l1)).
      { unfold SyncBuffer. rewrite (lbind_some _ _ _ (l_start_pos l + l_cur l) l1) by (apply (get_lpos_ok l1); unfold l1; lcbn; lia). cbv [bind get]. unfold l1. lcbn. replace (l_max_pos l <? _) with false by lia.
        unfold set_dest_cursor. cbv [bind get modify ret]. lcbn. unfold assert. rewrite (g_null _ _ G), <- GL. replace (_ && _) with true by lia. rewrite GL. reflexivity. }
      assert (CF : cutw l = full l) by (unfold cutw, full; rewrite Z.min_l by lia; reflexivity).
      rewrite lbind_bind, (lbind_some _ _ _ _ _ SY). rewrite lbind_bind, (lbind_some _ _ _ _ _ (annotate_ok (set_dest (full l) l1) ltac:(lcbn; exact (g_inv _ _ G)))). cbv iota.
      destruct (MakeBuffer_ok (set_dest (full l) l1)) as (l' & E2 & OU); [lcbn; exact (g_inv _ _ G)|unfold l1; lcbn; exact M0|intros _; lcbn; exact (g_dest _ _ G)|].
      rewrite (lbind_some _ _ _ _ _ E2). cbv [bind get modify ret]. cbn [set_dest l_dest] in OU.
      destruct (o_good _ _ _ OU (g_dest _ _ G)) as (K1 & K2 & K3 & K4 & K5); [unfold l1, full; lcbn; ws; rewrite <- (g_start _ _ G); exact GM|].
      eexists. split; [reflexivity|]. split; [|split; [split; lcbn; [rewrite (o_exact _ _ _ OU)|rewrite (o_owning _ _ _ OU)]; reflexivity|split; lcbn; [rewrite (o_dest _ _ _ OU), CF; reflexivity|rewrite (o_max _ _ _ OU); reflexivity]]].
      constructor; lcbn; rewrite ?(o_dest _ _ _ OU), ?(o_max _ _ _ OU); unfold l1; lcbn; auto.
      + rewrite K3. unfold full. ws. rewrite <- (g_start _ _ G). lia.
      + exact (g_inv _ _ G).
      + intros _. exists delta. exact (good_link _ _ G).
    - assert (SY : SyncBuffer l1 = Some (false, flimit (set_dest (cutw l) l1))).
      { unfold SyncBuffer. rewrite (lbind_some _ _ _ (l_start_pos l + l_cur l) l1) by (apply (get_lpos_ok l1); unfold l1; lcbn; lia). unfold bind at 1. unfold get at 1. cbv beta iota. unfold l1. lcbn. replace (l_max_pos l <? _) with true by lia.
        unfold set_dest_cursor. cbv [bind get modify ret]. lcbn. unfold assert. rewrite (g_null _ _ G), <- GL. replace (_ && _) with true by (clear - H C1 GM; lia). replace (l_cur l - (l_start_pos l + l_cur l - l_max_pos l)) with (Z.min (l_cur l) (l_max_pos l - l_start_pos l)) by lia.
        rewrite FailLimitExceeded_ok by (lcbn; rewrite GL; exact CI). unfold cutw. rewrite GL. reflexivity. }
      rewrite lbind_bind, (lbind_some _ _ _ _ _ SY). rewrite lbind_bind, (lbind_some _ _ _ _ _ (annotate_ok (flimit (set_dest (cutw l) l1)) ltac:(unfold flimit; lcbn; exact CI))). cbv [bind get modify ret].
      eexists. split; [reflexivity|]. split; [|split; [split; reflexivity|split; reflexivity]]. constructor; unfold flimit, l1, lok; lcbn; auto; try lia.
      intros _. exists delta. apply link_buf, (g_link _ _ G).
  Qed.
  Lemma cut_after c s l l' : rel s l -> bad l' -> l_dest l' = cutw l -> limited c = false -> after c s (exceeded s) l l'.
  Proof.
    intros R B D LI. destruct (exceeded_fin delta random s l R) as [F LV]. constructor.
    - rewrite (b_ok _ B). reflexivity.
    - auto.
    - intros _ X. rewrite (b_ok _ B) in X. discriminate.
    - intros _ _. rewrite D. split; [exact F|]. split; [intros Q _; exact (LV Q)|]. rewrite LI. discriminate.
  Qed.
  Lemma does_Fail l : good delta l -> exists r l', lexec (LWriter CFail) l = Some (r, l') /\ does (LWriter CFail) l r l'.
  Proof.
    intros G. cbn [lexec]. destruct (Fail_good l G) as (l' & E & B & OPT & D & _). rewrite (lbind_some _ _ _ _ _ E). eexists _, _. split; [reflexivity|]. split; [exact (bad_safe _ B)|]. split; [exact OPT|].
    intros s R _. left. exists (exceeded s). split; [cbn [lstep bytes_of]; auto|]. apply cut_after; auto.
  Qed.
  (** Changing the limit *)
  Lemma rel_limit m s l : rel s l -> a_high s <= m < 2 ^ 64 -> rel (accept delta [] m s) (set_max m l).
  Proof.
    intros R M. pose proof (r_good _ _ _ R) as G. pose proof (r_pos _ _ _ R) as RP. pose proof (r_high _ _ _ R) as RH. pose proof (r_limit _ _ _ R) as RL. pose proof (rel_place _ _ _ R) as [PL PL0]. pose proof (rel_end _ _ _ R) as RE. pose proof (rel_nonneg _ _ _ R) as SP.
    pose proof (good_cur _ _ G) as (C1 & C2 & C3). pose proof (i_buf _ (g_inv _ _ G)) as IB. unfold used, full in IB. ws_in IB. pose proof (g_start _ _ G) as GS.
    assert (G' : good delta (set_max m l)) by (destruct G; constructor; lcbn; auto; lia).
    set (t := ztake (m - a_pos s) (a_excess s)). set (u := zdrop (m - a_pos s) (a_excess s)). assert (TU : t ++ u = a_excess s) by apply ztake_zdrop.
    assert (ZT : zlen t = Z.max 0 (Z.min (m - a_pos s) (zlen (a_excess s)))) by (unfold t; apply zlen_ztake).
    assert (ZU : zlen t + zlen u = zlen (a_excess s)) by (rewrite <- zlen_app, TU; reflexivity).
    constructor; cbn [accept a_content a_pos a_excess a_limit a_high a_ok a_known]; rewrite ?app_nil_r; fold t; fold u; auto.
    - change (full (set_max m l)) with (full l). rewrite (r_full _ _ _ R). rewrite <- TU at 1. replace (a_pos s + zlen t + delta) with (a_pos s + delta + zlen t) by lia. rewrite write_at_app by exact PL. f_equal. lia.
    - assert (EXC : a_excess s = [] \/ a_excess s <> []) by (destruct (a_excess s); [left|right]; congruence). destruct EXC as [EX|EX].
      + assert (T0 : t = []) by (unfold t; rewrite EX; apply ztake_nil). rewrite T0, write_at_nil. change (zlen (@nil Z)) with 0. rewrite Z.add_0_r. rewrite <- (r_cut _ _ _ R). destruct (rel_within _ _ _ R EX) as (W1 & _ & _).
        unfold end_pos in RE. rewrite EX in RE. change (zlen (@nil Z)) with 0 in RE. unfold cutw. lcbn. rewrite !Z.min_l by lia. reflexivity.
      + pose proof (r_ex _ _ _ R EX) as X. pose proof (rel_beyond _ _ _ R EX) as BY.
        set (k := l_max_pos l - l_start_pos l). assert (KB : 0 <= k < l_cur l) by (unfold k; lia). assert (WB : w_written (l_dest l) <= k) by (unfold k; destruct (r_bound _ _ _ R) as [Y|Y]; lia).
        set (D := ztake (l_cur l) (w_buf (l_dest l))). assert (ZD : zlen D = l_cur l) by (unfold D; rewrite zlen_ztake; lia). set (p0 := w_start_pos (l_dest l) + delta).
        assert (P0 : 0 <= p0) by (apply (l_pos _ _ (g_link _ _ G))).
        pose proof (f_equal fst (r_full _ _ _ R)) as V1. pose proof (f_equal fst (r_cut _ _ _ R)) as V2. unfold view, data, used, full, cutw in V1, V2. cbn [fst] in V1, V2. ws_in V1. ws_in V2.
        replace (Z.max (l_cur l) (w_written (l_dest l))) with (l_cur l) in V1 by lia. fold k in V2. replace (Z.max (Z.min (l_cur l) k) (w_written (l_dest l))) with k in V2 by lia.
        assert (DK : ztake k (w_buf (l_dest l)) = ztake k D) by (unfold D; rewrite ztake_ztake, Z.min_l by lia; reflexivity). rewrite DK in V2. fold D in V1. fold p0 in V1, V2.
        assert (ZK : zlen (ztake k D) = k) by (rewrite zlen_ztake; lia). assert (PE : a_pos s + delta = p0 + zlen (ztake k D)) by (rewrite ZK; unfold p0, k; lia).
        rewrite <- V2, PE, write_at_app in V1 by exact P0.
        assert (DE : D = ztake k D ++ a_excess s). { apply (write_at_inj (file (l_dest l)) p0); [exact P0| |exact V1]. rewrite zlen_app, ZK, ZD. unfold end_pos in RE. unfold k. lia. }
        rewrite <- V2, PE, write_at_app by exact P0. unfold view, data, used, cutw. lcbn. ws. fold p0. f_equal; [|rewrite ZT; unfold end_pos in RE; lia].
        f_equal. replace (Z.max (Z.min (l_cur l) (m - l_start_pos l)) (w_written (l_dest l))) with (Z.min (m - l_start_pos l) (l_cur l)) by (unfold k in *; lia).
        rewrite <- ztake_ztake. fold D. rewrite DE at 1. rewrite ztake_app_r by (rewrite ZK; unfold k; lia). rewrite ZK. unfold t. f_equal. f_equal. unfold k. lia.
    - rewrite ZT. lia.
    - lia.
    - lcbn. destruct (r_bound _ _ _ R) as [Y|Y]; [left; exact Y|right; lia].
    - intros NE. rewrite ZT. destruct (Z.le_gt_cases (zlen (a_excess s)) (m - a_pos s)) as [Y|Y]; [unfold u in NE; rewrite zdrop_all in NE by lia; congruence|lia].
    - exact (r_ok _ _ _ R).
    - exact (r_known _ _ _ R).
  Qed.
  Definition unknown (b : bool) (s : state) : state :=
    {| a_content := a_content s; a_pos := a_pos s; a_excess := a_excess s; a_limit := a_limit s; a_high := a_high s; a_ok := b; a_known := false |}.
  Definition is_limit (c : lcall) : bool := match c with LSetMaxPos _ | LSetMaxLength _ | LClearLimit => true | _ => false end.
  Lemma set_limit_ok m c l : good delta l -> 0 <= m < 2 ^ 64 -> is_limit c = true -> exists l', set_max_pos m l = Some (tt, l') /\ safe l' /\ opts l l' /\ (l_start_pos l <= m -> l' = set_max m l) /\
    forall s, rel s l -> exists s', set_limit delta m s s' /\ after c s s' l l'.
  Proof.
    intros G M C. unfold set_max_pos. unfold bind at 1. unfold modify at 1. cbv beta iota. unfold bind at 1. unfold get at 1. cbv beta iota. lcbn. destruct (m <? l_start_pos l) eqn:Q.
    - rewrite (lbind_some _ _ _ _ _ (FailLimitExceeded_ok (set_max m l) ltac:(lcbn; exact (g_inv0 _ _ G)))). eexists. split; [reflexivity|].
      assert (B : bad (flimit (set_max m l))) by (apply flimit_bad; lcbn; [exact (g_inv0 _ _ G)|lia|intros _; exists delta; exact (g_link _ _ G)]).
      split; [exact (bad_safe _ B)|]. split; [split; reflexivity|]. split; [lia|]. intros s R. exists (unknown false s). split.
      + unfold set_limit. pose proof (rel_nonneg _ _ _ R). pose proof (r_pos _ _ _ R). replace (a_high s <=? m) with false by lia. split; [reflexivity|discriminate].
      + constructor; try discriminate. rewrite (b_ok _ B). reflexivity.
    - unfold ret. eexists. split; [reflexivity|]. assert (G' : good delta (set_max m l)) by (destruct G; constructor; lcbn; auto; lia). split; [exact (good_safe _ _ G')|]. split; [split; reflexivity|]. split; [auto|]. intros s R. unfold set_limit.
      destruct (a_high s <=? m) eqn:H.
      + exists (accept delta [] m s). split; [reflexivity|]. pose proof (rel_limit m s l R ltac:(lia)) as R'. constructor.
        * rewrite (g_ok _ _ G'). exact (r_ok _ _ _ R).
        * auto.
        * intros _ _. split; [exact R'|]. split; [auto|]. destruct c; discriminate.
        * intros _ X. rewrite (g_ok _ _ G') in X. discriminate.
      + exists (unknown true s). split; [split; [reflexivity|intros _; exact (r_ok _ _ _ R)]|]. constructor; try discriminate. rewrite (g_ok _ _ G'). reflexivity.
  Qed.
  Lemma kMaxPosition_value : kMaxPosition = 2 ^ 64 - 1.
  Proof. reflexivity. Qed.
  Lemma does_limit c l : good delta l -> is_limit c = true -> lcall_ok c -> exists r l', lexec c l = Some (r, l') /\ does c l r l'.
  Proof.
    intros G C CO. pose proof kMaxPosition_value as KV. pose proof (good_cur _ _ G) as (C1 & C2 & C3). pose proof (g_max _ _ G) as GM. pose proof (g_max64 _ _ G) as M64.
    assert (TOP : exists l', set_max_pos kMaxPosition l = Some (tt, l') /\ safe l' /\ opts l l' /\ l' = set_max kMaxPosition l /\ forall s, rel s l -> exists s', set_limit delta kMaxPosition s s' /\ after c s s' l l').
    { destruct (set_limit_ok kMaxPosition c l G ltac:(lia) C) as (l' & E & SA & OPT & EQ & D). exists l'. split; [exact E|]. split; [exact SA|]. split; [exact OPT|]. split; [apply EQ; lia|exact D]. }
    destruct c; try discriminate C; cbn [lexec]; cbn [lcall_ok] in CO.
    - destruct (set_limit_ok max_pos (LSetMaxPos max_pos) l G CO eq_refl) as (l' & E & SA & OPT & _ & D). rewrite (lbind_some _ _ _ _ _ E). eexists _, _. split; [reflexivity|]. split; [exact SA|]. split; [exact OPT|].
      intros s R _. left. destruct (D s R) as (s' & ST & A). exists s'. split; [cbn [lstep]; auto|exact A].
    - unfold set_max_length. rewrite lbind_bind, (lbind_some _ _ _ _ _ (good_get_lpos _ _ G)). rewrite lbind_bind. unfold bind at 1. unfold get at 1. cbv beta iota.
      assert (U : u64 (kMaxPosition - (l_start_pos l + l_cur l)) = kMaxPosition - (l_start_pos l + l_cur l)) by (unfold u64; apply Z.mod_small; lia). rewrite U.
      destruct (kMaxPosition - (l_start_pos l + l_cur l) <? max_length) eqn:Q.
      + rewrite lbind_bind. destruct (l_exact l) eqn:EX.
        * destruct (Fail_good l G) as (l' & E & B & OPT & D & MX). rewrite lbind_bind, (lbind_some _ _ _ _ _ E). cbv [bind ret modify]. eexists _, _. split; [reflexivity|].
          assert (B' : bad (set_max kMaxPosition l')) by (destruct B; constructor; lcbn; auto; lia). split; [exact (bad_safe _ B')|]. split; [exact OPT|]. intros s R _. left. exists (exceeded s). split.
          { cbn [lstep]. split; [reflexivity|]. rewrite <- (rel_end _ _ _ R). replace (kMaxPosition <? _) with true by lia. rewrite EX. reflexivity. }
          apply cut_after; auto.
        * destruct TOP as (l' & E & SA & OPT & -> & D). cbv [bind ret modify]. eexists _, _. split; [reflexivity|]. split; [exact SA|]. split; [exact OPT|]. intros s R _. left. destruct (D s R) as (s' & ST & A). exists s'. split; [|exact A].
          cbn [lstep]. split; [reflexivity|]. rewrite <- (rel_end _ _ _ R). replace (kMaxPosition <? _) with true by lia. rewrite EX. exact ST.
      + assert (U2 : u64 (l_start_pos l + l_cur l + max_length) = l_start_pos l + l_cur l + max_length) by (unfold u64; apply Z.mod_small; lia). rewrite U2.
        destruct (set_limit_ok (l_start_pos l + l_cur l + max_length) (LSetMaxLength max_length) l G ltac:(lia) eq_refl) as (l' & E & SA & OPT & _ & D). rewrite (lbind_some _ _ _ _ _ E). eexists _, _. split; [reflexivity|]. split; [exact SA|]. split; [exact OPT|].
        intros s R _. left. destruct (D s R) as (s' & ST & A). exists s'. split; [|exact A]. cbn [lstep]. split; [reflexivity|]. rewrite <- (rel_end _ _ _ R). replace (kMaxPosition <? _) with false by lia. exact ST.
    - unfold clear_limit. destruct TOP as (l' & E & SA & OPT & -> & D). cbv [bind ret modify]. eexists _, _. split; [reflexivity|]. split; [exact SA|]. split; [exact OPT|]. intros s R _. left. destruct (D s R) as (s' & ST & A). exists s'. split; [cbn [lstep]; auto|exact A].
  Qed.
End S.
