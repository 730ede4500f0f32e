(** What the other calls of the limiting writer do when it has not failed. *)
From Verif Require Import Base.Bytes Spec.PosixFile Model.BufferSizer Model.BufferedWriter.
From Verif Require Import Proof.PosixProof Proof.WriterLemmas Proof.WriterSteps Proof.WriterCalls Proof.WriterDead Proof.WriterSeeks Proof.WriterMore Proof.WriterKeep.
From Verif Require Import Model.LimitingWriter Spec.LimitingWriterSpec Proof.LimWriterLemmas Proof.LimWriterRel Proof.LimWriterCalls Proof.LimWriterMore.
Import BufferedWriter(writer, call).
Import BufferedWriterSpec(bytes_of, call_ok).
Notation file w := (f_content (w_fd w)).
Notation kMax := kMaxFdPosition.

Section S.
  Variables (delta : Z) (random : bool).
  Notation rel := (rel delta).
  Notation live := (live delta random).
  Notation does := (does delta random).
  Notation post := (post delta random).
  Notation after := (after delta random).

  Lemma synced_same r0 s r s' (P : Prop) : a_excess s = [] -> P -> synced r0 s r s' P.
  Proof. intros E H. unfold synced. rewrite E. exact H. Qed.
  Lemma synced_exceeded r0 s P : a_excess s <> [] -> synced r0 s r0 (exceeded s) P.
  Proof. intros E. unfold synced. destruct (a_excess s); [congruence|auto]. Qed.
  Lemma does_id c r l : good delta l -> flushes (l_owning l) c = false -> (forall s, rel s l -> lstep delta (l_exact l) (l_owning l) c s r s) -> does c l r l.
  Proof.
    intros G F ST. split; [exact (good_safe _ _ G)|]. split; [split; reflexivity|]. intros s R _. left. exists s. split; [exact (ST s R)|]. constructor; auto.
    - rewrite (g_ok _ _ G). exact (r_ok _ _ _ R).
    - intros _ _. split; [exact R|]. split; [auto|rewrite F; discriminate].
    - intros _ X. rewrite (g_ok _ _ G) in X. discriminate.
  Qed.
  (** Flush() *)
  Lemma does_Flush m l : good delta l -> exists r l', lexec (LWriter (CFlush m)) l = Some (r, l') /\ does (LWriter (CFlush m)) l r l'.
  Proof.
    intros G. cbn [lexec]. unfold Flush. destruct (Z.le_gt_cases (l_start_pos l + l_cur l) (l_max_pos l)) as [H|H].
    - destruct (Flush_ok m delta (full l) (g_inv _ _ G) (g_dest _ _ G) (good_link _ _ G)) as (b & w & E & BO & M & FI). destruct (with_dest_ok false _ _ _ _ _ G H E (m_inv _ _ _ _ _ M)) as (l' & E2 & OU).
      rewrite (lbind_some _ _ _ _ _ E2). eexists _, _. split; [reflexivity|]. apply (does_same delta random True _ _ l w l' G H M OU); auto.
      + left. exact (zr_Flush _ _ _ _ E).
      + intros O. left. congruence.
      + intros _ O. rewrite (FI O). destruct (moves_nil_view _ _ _ _ M O) as [_ ->]. reflexivity.
      + intros s R EX. split; [|auto]. intros O. cbn [lstep bytes_of]. apply synced_same; auto. split; congruence.
    - rewrite (lbind_some _ _ _ _ _ (with_dest_exceeded false _ _ _ G ltac:(lia))). eexists _, _. split; [reflexivity|]. apply does_exceeded; [exact G|lia|]. intros s R E. cbn [lstep bytes_of]. apply synced_exceeded. exact E.
  Qed.
  Lemma does_FlushFromObject l : good delta l -> exists r l', lexec LFlushFromObject l = Some (r, l') /\ does LFlushFromObject l r l'.
  Proof.
    intros G. cbn [lexec]. unfold FlushFromObject. rewrite lbind_bind. unfold bind at 1. unfold get at 1. cbv beta iota. destruct (Z.le_gt_cases (l_start_pos l + l_cur l) (l_max_pos l)) as [H|H].
    - destruct (l_owning l) eqn:OW.
      + destruct (Flush_ok false delta (full l) (g_inv _ _ G) (g_dest _ _ G) (good_link _ _ G)) as (b & w & E & BO & M & FI). destruct (with_dest_ok false _ _ _ _ _ G H E (m_inv _ _ _ _ _ M)) as (l' & E2 & OU).
        rewrite (lbind_some _ _ _ _ _ E2). eexists _, _. split; [reflexivity|]. apply (does_same delta random True _ _ l w l' G H M OU); auto.
        * left. exact (zr_Flush _ _ _ _ E).
        * intros O. left. congruence.
        * intros _ O. rewrite (FI O). destruct (moves_nil_view _ _ _ _ M O) as [_ ->]. reflexivity.
        * intros s R EX. split; [|auto]. intros O. cbn [lstep]. apply synced_same; auto. split; congruence.
      + destruct (writes_ret delta (full l) (g_inv _ _ G) (g_dest _ _ G) (good_link _ _ G)) as (b & w & E & BO & M). pose proof E as E0. injection E as <- <-. destruct (with_dest_ok false _ _ _ _ _ G H E0 (m_inv _ _ _ _ _ M)) as (l' & E2 & OU).
        rewrite (lbind_some _ _ _ _ _ E2). eexists _, _. split; [reflexivity|]. apply (does_same delta random True _ _ l (full l) l' G H M OU); auto.
        * intros O. left. congruence.
        * cbn [flushes]. rewrite OW. discriminate.
        * intros s R EX. split; [|auto]. intros O. cbn [lstep]. apply synced_same; auto.
    - rewrite (lbind_some _ _ _ _ _ (with_dest_exceeded false _ _ _ G ltac:(lia))). eexists _, _. split; [reflexivity|]. apply does_exceeded; [exact G|lia|]. intros s R E. cbn [lstep]. apply synced_exceeded. exact E.
  Qed.
  (** Size() *)
  Lemma does_Size l : good delta l -> exists r l', lexec (LWriter CSize) l = Some (r, l') /\ does (LWriter CSize) l r l'.
  Proof.
    intros G. cbn [lexec]. unfold Size. destruct (Z.le_gt_cases (l_start_pos l + l_cur l) (l_max_pos l)) as [H|H].
    - destruct (Size_ok delta (full l) (g_inv _ _ G) (g_dest _ _ G) (good_link _ _ G)) as (sz & w & E & M & YES & NO). destruct (with_dest_ok None _ _ _ _ _ G H E (m_inv _ _ _ _ _ M)) as (l' & E2 & OU).
      rewrite (lbind_some _ _ _ _ _ E2). eexists _, _. split; [reflexivity|]. apply (does_same delta random (seekable (full l)) _ _ l w l' G H M OU); auto.
      + left. exact (zr_Size _ _ _ E).
      + intros O. destruct (YES O) as (_ & _ & RA & _). unfold seekable. intros X. rewrite (fr_rand _ _ (m_frame _ _ _ _ _ M)) in RA; congruence.
      + intros O. right. rewrite (NO O). reflexivity.
      + discriminate.
      + intros s R EX. split.
        * intros O. cbn [lstep bytes_of]. apply synced_same; auto. destruct (YES O) as (-> & FI & _). destruct (rel_within _ _ _ R EX) as (_ & V & _). rewrite FI, V. auto.
        * cbn [may_fail]. intros MF (_ & _ & SK). destruct random; [exact (SK eq_refl)|congruence].
    - rewrite (lbind_some _ _ _ _ _ (with_dest_exceeded None _ _ _ G ltac:(lia))). eexists _, _. split; [reflexivity|]. apply does_exceeded; [exact G|lia|]. intros s R E. cbn [lstep bytes_of]. apply synced_exceeded. exact E.
  Qed.
  (** SetWriteSizeHint() *)
  Lemma does_hint h l : good delta l -> exists r l', lexec (LWriter (CSetWriteSizeHint h)) l = Some (r, l') /\ does (LWriter (CSetWriteSizeHint h)) l r l'.
  Proof.
    intros G. cbn [lexec]. unfold SetWriteSizeHint. rewrite lbind_bind. unfold bind at 1. unfold get at 1. cbv beta iota. destruct (l_owning l && negb (l_exact l)) eqn:C.
    2:{ unfold bind, ret. eexists _, _. split; [reflexivity|]. apply does_id; auto. intros s R. cbn [lstep bytes_of]. rewrite C. auto. }
    rewrite lbind_bind. destruct (Z.le_gt_cases (l_start_pos l + l_cur l) (l_max_pos l)) as [H|H].
    - rewrite (lbind_some _ _ _ _ _ (SyncBuffer_ok _ _ G H)). cbn [negb]; cbv iota. rewrite lbind_bind. pose proof (good_cur _ _ G) as (C1 & C2 & C3).
      rewrite (lbind_some _ _ _ (l_start_pos l + l_cur l) (set_dest (full l) l)) by (apply (get_lpos_ok (set_dest (full l) l)); lcbn; lia). rewrite lbind_bind.
      match goal with |- context [BufferedWriter.SetWriteSizeHint ?x] => set (hh := x) end. destruct (set_hint_ok hh (full l) (g_inv _ _ G)) as [E I2].
      set (w := set_sizer _ (full l)) in *. rewrite (lbind_on_dest _ _ _ tt w) by (lcbn; exact E).
      assert (M : moves True delta (full l) [] w) by (apply moves_sizer; [exact (g_inv _ _ G)|exact (g_dest _ _ G)|exact (good_link _ _ G)|exact I2]).
      destruct (MakeBuffer_ok (set_dest w (set_dest (full l) l))) as (l' & E2 & OU); [lcbn; exact I2|lcbn; exact (good_max0 _ _ G)|lcbn; rewrite (proj2 (good_open _ _ G)); discriminate|].
      rewrite (lbind_some _ _ _ _ _ E2). exists RUnit, l'. split; [reflexivity|]. cbn [set_dest l_dest] in OU. assert (OU' : outcome l w l') by (destruct OU; constructor; assumption).
      apply (does_same delta random True _ _ l w l' G H M OU'); auto.
      + intros O. exfalso. pose proof (g_dest _ _ G) as D. change (ok w) with (ok (l_dest l)) in O. congruence.
      + discriminate.
      + intros s R EX. split; [|auto]. intros _. cbn [lstep bytes_of]. rewrite C. apply synced_same; auto.
    - rewrite (lbind_some _ _ _ _ _ (SyncBuffer_exceeded _ _ G ltac:(lia))). cbn [negb]; cbv iota. unfold bind, ret. eexists _, _. split; [reflexivity|]. apply does_exceeded; [exact G|lia|]. intros s R E. cbn [lstep bytes_of]. rewrite C. apply synced_exceeded. exact E.
  Qed.
  (** Seek() *)
  Lemma does_Seek p l : good delta l -> 0 <= p < 2 ^ 64 -> exists r l', lexec (LWriter (CSeek p)) l = Some (r, l') /\ does (LWriter (CSeek p)) l r l'.
  Proof.
    intros G P. cbn [lexec]. unfold Seek. rewrite lbind_bind, (lbind_some _ _ _ _ _ (good_get_lpos _ _ G)), lbind_bind. unfold bind at 1. unfold get at 1. cbv beta iota. destruct (p =? l_start_pos l + l_cur l) eqn:PE.
    { unfold bind, ret. eexists _, _. split; [reflexivity|]. apply does_id; auto. intros s R. cbn [lstep bytes_of]. rewrite <- (rel_end _ _ _ R), PE. auto. }
    cbv zeta. rewrite lbind_bind. set (q := Z.min p (l_max_pos l)). pose proof (good_max0 _ _ G) as M0. pose proof (g_max64 _ _ G) as M64. destruct (Z.le_gt_cases (l_start_pos l + l_cur l) (l_max_pos l)) as [H|H].
    2:{ rewrite (lbind_some _ _ _ _ _ (with_dest_exceeded false _ _ _ G ltac:(lia))). unfold bind, ret. cbn [andb]. eexists _, _. split; [reflexivity|]. apply does_exceeded; [exact G|lia|]. intros s R E. cbn [lstep bytes_of]. rewrite <- (rel_end _ _ _ R), PE. apply synced_exceeded. exact E. }
    destruct (Seek_ok q delta (full l) (g_inv _ _ G) (g_dest _ _ G) (good_link _ _ G) ltac:(unfold q; lia)) as [(b & w & E & J & DZ)|(_ & RN & NN)].
    2:{ exfalso. destruct (g_rand _ _ G) as [X|X]; [apply X; exact RN|apply NN; exact X]. }
    destruct (with_dest_ok false _ _ _ _ _ G H E (j_inv _ _ _ _ _ _ _ J)) as (l' & E2 & OU). rewrite (lbind_some _ _ _ _ _ E2). unfold bind, ret. eexists _, _. split; [reflexivity|].
    assert (RA : w_random w <> None \/ nofail w) by (apply (rand_next (full l)); [exact (j_frame _ _ _ _ _ _ _ J)|intros N; exact (proj1 (j_nofail _ _ _ _ _ _ _ J N))|exact (g_rand _ _ G)]).
    split; [apply (outcome_safe _ _ _ OU (g_ok _ _ G) M64 (j_inv _ _ _ _ _ _ _ J)); [intros O; exists delta; apply (j_view _ _ _ _ _ _ _ J O)|intros _; exact RA]|]. split; [exact (opts_outcome _ _ _ OU)|].
    intros s R _. pose proof (rel_no_excess _ _ _ R H) as EX. destruct (rel_within _ _ _ R EX) as (_ & V & _). pose proof (rel_end _ _ _ R) as RE. destruct (ok w) eqn:O.
    - left. destruct (j_view _ _ _ _ _ _ _ J O) as [L1 VW]. rewrite V in VW. unfold seek_to in VW. cbn [fst snd] in VW. pose proof (r_limit _ _ _ R) as RL. pose proof (r_high _ _ _ R) as RH. pose proof (r_pos _ _ _ R) as RP.
      assert (X : exists p1, view delta w = (a_content s, p1) /\ p1 <= a_limit s /\ lstep delta (l_exact l) (l_owning l) (LWriter (CSeek p)) s (RBool (b && (q =? p))) (move (a_content s) p1 s)).
      { cbn [lstep bytes_of]. rewrite <- RE, PE, RL. fold q. destruct ((q <=? a_pos s) || (q <=? zlen (a_content s))) eqn:Q.
        - apply pair_equal_spec in VW as [-> VW]. exists q. split; [rewrite VW; reflexivity|]. split; [unfold q; lia|]. apply synced_same; auto.
        - apply pair_equal_spec in VW as [-> VW]. exists (zlen (a_content s)). split; [rewrite VW; reflexivity|]. split; [unfold q in *; lia|]. apply synced_same; auto. }
      destruct X as (p1 & VV & PL & ST). exists (move (a_content s) p1 s). split; [exact ST|].
      destruct (rel_move delta s l w l' _ _ R EX OU (j_inv _ _ _ _ _ _ _ J) O L1 VV PL RA) as (K & R' & FU).
      { destruct (Seek_written _ _ _ _ E) as [X|[X1 X2]]; [left; exact X|]. unfold full in X1, X2. ws_in X1. ws_in X2. rewrite X1. unfold end_pos in RE. rewrite EX, (g_start _ _ G) in RE. change (zlen (@nil Z)) with 0 in RE.
        pose proof (good_cur _ _ G) as (GC & _ & _). destruct (r_bound _ _ _ R) as [Y|Y]; right; lia. }
      constructor.
      + rewrite K. exact (r_ok _ _ _ R).
      + intros _. exact (r_known _ _ _ R).
      + intros _ _. split; [exact R'|]. split; [|discriminate]. intros (NF & FT & SK) _. destruct (j_nofail _ _ _ _ _ _ _ J NF) as [NF' SK']. unfold LimWriterRel.live. rewrite FU, (o_dest _ _ _ OU). split; [exact NF'|]. split; [|intros X; apply SK', SK, X].
        destruct (DZ eq_refl) as [X|X].
        * assert (W : w = full l).
          { assert (Y : BufferedWriter.Seek q (full l) = Some (true, full l)) by (unfold BufferedWriter.Seek; rewrite (bind_some _ _ _ _ _ (get_pos_ok _ (g_inv _ _ G))), X, Z.eqb_refl; reflexivity). congruence. }
          rewrite W. exact FT.
        * pose proof (view_fits delta (full l) (g_inv _ _ G) (good_link _ _ G) FT) as VF. rewrite V in VF. cbn [fst] in VF. rewrite X in *. apply fits_of_view; [exact (j_inv _ _ _ _ _ _ _ J)|]. rewrite VV. exact VF.
      + intros _ X. congruence.
    - right. destruct (o_bad _ _ _ OU (or_introl O)) as (B1 & _). rewrite (j_fail _ _ _ _ _ _ _ J O). cbn [andb]. split; [auto|]. split; [exact B1|]. split.
      + rewrite (o_dest _ _ _ OU). apply closing_none; [exact (j_inv _ _ _ _ _ _ _ J)|exact O|]. rewrite (fr_open _ _ (j_frame _ _ _ _ _ _ _ J)). pose proof (g_dest _ _ G) as D. apply ok_iff in D. apply D.
      + intros ((NF & FT & SK) & _ & MF). destruct (j_live _ _ _ _ _ _ _ J) as [X _]; auto; [|congruence]. apply SK. destruct random; [reflexivity|]. exfalso. apply MF. cbn [may_fail]. split; [|reflexivity]. lia.
  Qed.
  (** Truncate() *)
  Lemma truncate_within n l : good delta l -> l_start_pos l + l_cur l <= l_max_pos l -> 0 <= n < 2 ^ 64 ->
    exists b l', with_dest false (BufferedWriter.Truncate n) l = Some (b, l') /\ does (LWriter (CTruncate n)) l (RBool b) l'.
  Proof.
    intros G H N. pose proof (g_max64 _ _ G) as M64. destruct (Truncate_ok n delta (full l) (g_inv _ _ G) (g_dest _ _ G) (good_link _ _ G) N) as (b & w & E & J).
    destruct (with_dest_ok false _ _ _ _ _ G H E (j_inv _ _ _ _ _ _ _ J)) as (l' & E2 & OU). exists b, l'. split; [exact E2|].
    assert (RA : w_random w <> None \/ nofail w) by (apply (rand_next (full l)); [exact (j_frame _ _ _ _ _ _ _ J)|intros NF; exact (proj1 (j_nofail _ _ _ _ _ _ _ J NF))|exact (g_rand _ _ G)]).
    split; [apply (outcome_safe _ _ _ OU (g_ok _ _ G) M64 (j_inv _ _ _ _ _ _ _ J)); [intros O; exists 0; apply (j_view _ _ _ _ _ _ _ J O)|intros _; exact RA]|]. split; [exact (opts_outcome _ _ _ OU)|].
    intros s R RQ. cbn [required] in RQ. assert (D0 : delta = 0) by exact RQ. clear RQ. pose proof (rel_no_excess _ _ _ R H) as EX. destruct (rel_within _ _ _ R EX) as (_ & V & _). pose proof (rel_end _ _ _ R) as RE. pose proof (r_limit _ _ _ R) as RL.
    assert (OP : w_open w = true) by (rewrite (fr_open _ _ (j_frame _ _ _ _ _ _ _ J)); pose proof (g_dest _ _ G) as D; apply ok_iff in D; apply D).
    destruct (ok w) eqn:O.
    - left. destruct (j_view _ _ _ _ _ _ _ J O) as [L1 VW]. rewrite V in VW. unfold truncate_to in VW. cbn [fst snd] in VW.
      assert (X : exists c1 p1, view 0 w = (c1, p1) /\ lstep delta (l_exact l) (l_owning l) (LWriter (CTruncate n)) s (RBool b) (if a_limit s <? p1 then exceeded (move c1 p1 s) else move c1 p1 s)).
      { cbn [lstep bytes_of]. rewrite EX. change (zlen (@nil Z)) with 0. cbn [Z.eqb negb]. rewrite andb_false_r. destruct ((n <? a_pos s) || (n <=? zlen (a_content s))).
        - apply pair_equal_spec in VW as [-> VW]. exists (set_size (a_content s) n), n. rewrite VW. split; [reflexivity|]. split; reflexivity.
        - apply pair_equal_spec in VW as [-> VW]. exists (a_content s), (zlen (a_content s)). rewrite VW. split; [reflexivity|]. split; reflexivity. }
      destruct X as (c1 & p1 & VV & ST). eexists. split; [exact ST|]. clear ST VW.
      destruct (zcr_Truncate _ _ _ _ E) as [CU LI]. pose proof (f_equal snd VV) as SP. unfold view in SP. cbn [snd] in SP. rewrite CU, Z.add_0_r in SP.
      assert (LW : live l -> nofail w /\ fits delta w /\ (random = true -> seekable w)).
      { intros (NF & FT & SK). destruct (j_nofail _ _ _ _ _ _ _ J NF) as [NF' SK']. split; [exact NF'|]. split; [rewrite D0 in *; apply (j_live _ _ _ _ _ _ _ J Logic.I NF FT)|]. intros X. apply SK', SK, X. }
      destruct (a_limit s <? p1) eqn:Q.
      + destruct (o_bad _ _ _ OU) as (B1 & _); [right; lia|]. constructor.
        * rewrite B1. reflexivity.
        * intros _. exact (r_known _ _ _ R).
        * intros _ X. congruence.
        * intros _ _. cbn [exceeded move a_content a_pos]. rewrite (o_dest _ _ _ OU). split; [constructor; [exact (j_inv _ _ _ _ _ _ _ J)|rewrite D0; intros _; split; [exact L1|exact VV]|rewrite OP; discriminate]|].
          split; [|discriminate]. intros Q0 _. destruct (LW Q0) as (NF & FT & _). left. auto.
      + pose proof R as R0. rewrite D0 in R0. destruct (rel_move 0 s l w l' _ _ R0 EX OU (j_inv _ _ _ _ _ _ _ J) O L1 VV ltac:(lia) RA) as (K & R' & FU).
        { left. exact (zr_Truncate _ _ _ _ E). }
        constructor.
        * rewrite K. exact (r_ok _ _ _ R).
        * intros _. exact (r_known _ _ _ R).
        * intros _ _. split; [rewrite D0; exact R'|]. split; [|discriminate]. intros Q0 _. destruct (LW Q0) as (NF & FT & SK). unfold LimWriterRel.live. rewrite FU, (o_dest _ _ _ OU). split; [exact NF|]. split; [exact FT|exact SK].
        * intros _ X. congruence.
    - right. destruct (o_bad _ _ _ OU (or_introl O)) as (B1 & _). rewrite (j_fail _ _ _ _ _ _ _ J O). split; [auto|]. split; [exact B1|]. split.
      + rewrite (o_dest _ _ _ OU). apply closing_none; [exact (j_inv _ _ _ _ _ _ _ J)|exact O|exact OP].
      + intros ((NF & FT & SK) & _ & MF). destruct (j_live _ _ _ _ _ _ _ J Logic.I NF FT) as [X _]. congruence.
  Qed.
End S.
