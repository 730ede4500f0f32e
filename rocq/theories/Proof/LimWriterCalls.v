(** What calls of the limiting writer do when it has not failed. *)
From Verif Require Import Base.Bytes Spec.PosixFile Model.BufferSizer Model.BufferedWriter.
From Verif Require Import Proof.PosixProof Proof.WriterLemmas Proof.WriterSteps Proof.WriterCalls Proof.WriterDead Proof.WriterSeeks Proof.WriterMore Proof.WriterKeep.
From Verif Require Import Model.LimitingWriter Spec.LimitingWriterSpec Proof.LimWriterLemmas Proof.LimWriterRel.
Import BufferedWriter(writer, call).
Import BufferedWriterSpec(bytes_of, call_ok).
Notation file w := (f_content (w_fd w)).
Notation kMax := kMaxFdPosition.

Lemma write_at_inj c p a b : 0 <= p -> zlen a = zlen b -> write_at c p a = write_at c p b -> a = b.
Proof.
  intros P E H. destruct a as [|x a]; destruct b as [|y b]; auto.
  - change (zlen (@nil Z)) with 0 in E. rewrite zlen_cons in E. pose proof (zlen_nonneg b). lia.
  - change (zlen (@nil Z)) with 0 in E. rewrite zlen_cons in E. pose proof (zlen_nonneg a). lia.
  - rewrite !write_at_pad in H by (assumption || discriminate). apply app_inv_head in H. rewrite E in H. apply app_inv_tail in H. exact H.
Qed.
Lemma fits_of_view w : inv w -> zlen (fst (view 0 w)) <= kMax -> fits 0 w.
Proof.
  intros I1 H. unfold fits. change (Z.max 0 0) with 0. rewrite Z.add_0_r. unfold view in H. cbn [fst] in H. rewrite Z.add_0_r in H. pose proof (i_start _ I1) as ST. pose proof (i_buf _ I1) as IB. pose proof (i_cur _ I1) as IC.
  destruct (data w) as [|x d] eqn:D.
  - assert (used w <= 0). { pose proof (f_equal zlen D) as X. unfold data in X. rewrite zlen_ztake in X. change (zlen (@nil Z)) with 0 in X. lia. } lia.
  - rewrite <- D in H. rewrite zlen_write_at in H by (try lia; congruence). unfold data in H at 1. rewrite zlen_ztake in H. unfold used in *. lia.
Qed.
Lemma view_fits delta w : inv w -> link delta w -> fits delta w -> zlen (fst (view delta w)) <= kMax.
Proof.
  intros I1 L1 F. unfold view. cbn [fst]. pose proof (i_size _ I1) as SZ. destruct (data w) as [|x d] eqn:D; [rewrite write_at_nil; exact SZ|]. rewrite <- D. rewrite zlen_write_at; [|apply (l_pos _ _ L1)|congruence].
  unfold data. rewrite zlen_ztake. unfold fits in F. pose proof (i_cur _ I1). unfold used in *. lia.
Qed.

Definition opts (l l' : limiter) : Prop := l_exact l' = l_exact l /\ l_owning l' = l_owning l.
Lemma opts_outcome l w l' : outcome l w l' -> opts l l'.
Proof. intros OU. split; [exact (o_exact _ _ _ OU)|exact (o_owning _ _ _ OU)]. Qed.
Section S.
  Variables (delta : Z) (random : bool).
  Notation rel := (rel delta).
  Notation live := (live delta random).
  (** What the relation says after a call *)
  Record after (c : lcall) (s s' : state) (l l' : limiter) : Prop := {
    n_ok : a_ok s' = lok l';
    n_known : a_known s' = true -> a_known s = true;
    n_rel : a_known s' = true -> lok l' = true -> rel s' l' /\ (live l -> room delta c s -> live l') /\
      (flushes (l_owning l) c = true -> file (l_dest l') = a_content s' /\ BufferedWriterSpec.pos (l_dest l') = a_pos s');
    n_fin : a_known s' = true -> lok l' = false -> fin delta (a_content s') (a_pos s') (l_dest l') /\ (live l -> room delta c s -> finlive delta (l_dest l')) /\
      (limited c = true -> l_start_pos l' + l_cur l' = a_limit s) }.
  Definition post (c : lcall) (s : state) (r : result) (l l' : limiter) : Prop :=
    (exists s', lstep delta (l_exact l) (l_owning l) c s r s' /\ after c s s' l l') \/
    ((r = RBool false \/ r = RSize None) /\ lok l' = false /\ closing (l_dest l') = None /\ ~ (live l /\ room delta c s /\ ~ may_fail random c s)).
  Definition does (c : lcall) (l : limiter) (r : result) (l' : limiter) : Prop :=
    safe l' /\ opts l l' /\ forall s, rel s l -> required delta (l_exact l) (l_owning l) c s -> post c s r l l'.

  Lemma rel_excess s l : rel s l -> l_max_pos l < l_start_pos l + l_cur l -> a_excess s <> [].
  Proof. intros R H E. destruct (rel_within _ _ _ R E) as (X & _). lia. Qed.
  Lemma rel_no_excess s l : rel s l -> l_start_pos l + l_cur l <= l_max_pos l -> a_excess s = [].
  Proof. intros R H. destruct (a_excess s) eqn:E; [reflexivity|]. pose proof (rel_beyond _ _ _ R ltac:(congruence)). lia. Qed.
  (** The limit has been exceeded before. *)
  Lemma does_exceeded c r l : good delta l -> l_max_pos l < l_start_pos l + l_cur l ->
    (forall s, rel s l -> a_excess s <> [] -> lstep delta (l_exact l) (l_owning l) c s r (exceeded s)) -> does c l r (flimit (set_dest (cutw l) l)).
  Proof.
    intros G H ST. split; [apply bad_safe, (exceeded_bad _ _ G)|]. split; [split; reflexivity|]. intros s R _. left. exists (exceeded s). split; [apply ST; [exact R|exact (rel_excess _ _ R H)]|].
    assert (K : lok (flimit (set_dest (cutw l) l)) = false) by (unfold lok, flimit; lcbn; apply andb_false_r).
    destruct (exceeded_fin delta random s l R) as [F LV]. constructor.
    - rewrite K. reflexivity.
    - auto.
    - intros _ X. rewrite K in X. discriminate.
    - intros _ _. cbn [exceeded a_content a_pos]. split; [exact F|]. split; [intros Q _; exact (LV Q)|]. intros _. unfold flimit. lcbn. rewrite Z.add_0_r. symmetry. exact (r_limit _ _ _ R).
  Qed.
  (** A function of the original writer which writes some bytes *)
  Lemma does_moves P c d r l w l' : good delta l -> l_start_pos l + l_cur l <= l_max_pos l -> moves P delta (full l) d w -> outcome l w l' ->
    (w_written w = 0 \/ (w_written w = w_written (l_dest l) /\ w_start_pos w = w_start_pos (l_dest l))) ->
    (ok w = true -> P) -> (ok w = false -> r = RBool false \/ r = RSize None) -> (flushes (l_owning l) c = true -> ok w = true -> file w = fst (view delta w)) -> zlen d <= zlen (bytes c) ->
    (forall s, rel s l -> a_excess s = [] -> a_pos s + zlen d <= a_limit s /\ (ok w = true -> lstep delta (l_exact l) (l_owning l) c s r (accept delta d (a_limit s) s)) /\ (~ may_fail random c s -> live l -> P)) ->
    does c l r l'.
  Proof.
    intros G H M OU B OP NO FL BY ST.
    split; [|split; [exact (opts_outcome _ _ _ OU)|]].
    - apply (outcome_safe _ _ _ OU (g_ok _ _ G) (g_max64 _ _ G) (m_inv _ _ _ _ _ M)); [intros O; exists delta; apply (m_view _ _ _ _ _ M O)|].
      intros _. apply (rand_next (full l)); [exact (m_frame _ _ _ _ _ M)|intros N; exact (proj1 (m_nofail _ _ _ _ _ M N))|exact (g_rand _ _ G)].
    - intros s R _. pose proof (rel_no_excess _ _ R H) as E. destruct (ST s R E) as (LE & LS & MF). destruct (moves_spec delta random P d s l w l' R E M OU B LE) as (_ & YES & NOT).
      assert (RM : room delta c s -> a_pos s + zlen d + Z.max 0 delta <= kMax) by (unfold room, end_pos; rewrite E; change (zlen (@nil Z)) with 0; lia).
      destruct (ok w) eqn:O.
      + left. destruct (YES eq_refl) as (K & R' & FU & LV). exists (accept delta d (a_limit s) s). split; [exact (LS eq_refl)|]. constructor.
        * rewrite K. exact (r_ok _ _ _ R').
        * intros _. exact (r_known _ _ _ R).
        * intros _ _. split; [exact R'|]. split; [intros Q RO; exact (LV Q (RM RO) (OP eq_refl))|]. intros FX. destruct (rel_within _ _ _ R' ltac:(rewrite accept_all by assumption; reflexivity)) as (_ & V & _). rewrite FU in V.
          rewrite (o_dest _ _ _ OU). rewrite (FL FX eq_refl), V. cbn [fst]. split; [reflexivity|]. apply (f_equal snd) in V. exact V.
        * intros _ X. congruence.
      + right. destruct (NOT eq_refl) as (K & CL & NL). split; [exact (NO eq_refl)|]. split; [exact K|]. split; [exact CL|]. intros (Q & RO & MFX). apply NL. split; [exact Q|]. split; [exact (RM RO)|exact (MF MFX Q)].
  Qed.
  (** which does not change the view *)
  Lemma does_same P c r l w l' : good delta l -> l_start_pos l + l_cur l <= l_max_pos l -> moves P delta (full l) [] w -> outcome l w l' ->
    (w_written w = 0 \/ (w_written w = w_written (l_dest l) /\ w_start_pos w = w_start_pos (l_dest l))) ->
    (ok w = true -> P) -> (ok w = false -> r = RBool false \/ r = RSize None) -> (flushes (l_owning l) c = true -> ok w = true -> file w = fst (view delta w)) ->
    (forall s, rel s l -> a_excess s = [] -> (ok w = true -> lstep delta (l_exact l) (l_owning l) c s r s) /\ (~ may_fail random c s -> live l -> P)) ->
    does c l r l'.
  Proof.
    intros G H M OU B OP NO FL ST. apply (does_moves P c [] r l w l'); auto; [apply zlen_nonneg|]. intros s R E. destruct (ST s R E) as [S1 S2]. rewrite (accept_nil delta s l R). split; [|auto].
    change (zlen (@nil Z)) with 0. pose proof (r_pos _ _ _ R). pose proof (r_high _ _ _ R). lia.
  Qed.
  Lemma good_max0 l : good delta l -> 0 <= l_max_pos l.
  Proof. intros G. pose proof (g_max _ _ G). pose proof (good_cur _ _ G). lia. Qed.

  Lemma exceeded_accept d s l : rel s l -> a_excess s <> [] -> exceeded (accept delta d (a_limit s) s) = exceeded s /\ a_excess (accept delta d (a_limit s) s) <> [].
  Proof.
    intros R E. pose proof (r_ex _ _ _ R E) as X. pose proof (r_pos _ _ _ R) as RP. unfold exceeded, accept. cbn [a_content a_pos a_excess a_limit a_high a_ok a_known]. rewrite X, Z.sub_diag, (ztake_nonpos 0), (zdrop_nonpos 0) by lia.
    change (zlen (@nil Z)) with 0. rewrite write_at_nil, Z.add_0_r. rewrite Z.max_l by lia. split; [reflexivity|]. destruct (a_excess s); [congruence|discriminate].
  Qed.
  Lemma lstep_write c d s r s' ex ow : bytes_of c = Some d -> let s1 := accept delta d (a_limit s) s in (r = RBool true /\ s' = s1) \/ (a_excess s1 <> [] /\ r = RBool false /\ s' = exceeded s1) ->
    lstep delta ex ow (LWriter c) s r s'.
  Proof. intros B s1 H. cbn [lstep]. rewrite B. exact H. Qed.
  (** Storing in the buffer *)
  Lemma does_store c d l : good delta l -> bytes_of c = Some d -> zlen d <= lavailable l -> lput d l = Some (tt, stored d l) /\ does (LWriter c) l (RBool true) (stored d l).
  Proof.
    intros G B A. destruct (lput_ok delta d l G A) as (E & G' & _ & _). split; [exact E|]. split; [exact (good_safe _ _ G')|]. split; [split; reflexivity|]. intros s R _. left.
    destruct (store_spec delta random d s l R A) as (_ & R' & LV). exists (accept delta d (a_limit s) s). split; [apply (lstep_write _ d); auto|]. constructor.
    - rewrite (g_ok _ _ G'). exact (r_ok _ _ _ R).
    - intros _. exact (r_known _ _ _ R).
    - intros _ _. split; [exact R'|]. split; [|destruct c; discriminate]. intros Q RO. apply (LV Q). unfold room, bytes in RO. rewrite B in RO. exact RO.
    - intros _ X. rewrite (g_ok _ _ G') in X. discriminate.
  Qed.
  (** WriteInternal() *)
  Lemma does_WriteInternal c d whole part l : good delta l -> bytes_of c = Some d -> writes whole d -> wk whole ->
    (forall n, 0 <= n < zlen d -> n < 2 ^ 64 -> writes (part n) (ztake n d)) ->
    exists b l', WriteInternal (zlen d) whole part l = Some (b, l') /\ does (LWriter c) l (RBool b) l'.
  Proof.
    intros G B W KE PA. pose proof (good_max0 _ G) as M0. pose proof (good_cur _ _ G) as (C1 & C2 & C3). unfold WriteInternal. unfold bind at 1. unfold get at 1. cbv beta iota. rewrite lbind_assert by (pose proof (g_max _ _ G); lia). rewrite (g_ok _ _ G). cbn [negb]; cbv iota.
    assert (BC : bytes (LWriter c) = d) by (unfold bytes; rewrite B; reflexivity).
    destruct (Z.le_gt_cases (l_start_pos l + l_cur l) (l_max_pos l)) as [H|H].
    2:{ rewrite (lbind_some _ _ _ _ _ (SyncBuffer_exceeded _ _ G ltac:(lia))). cbn [negb]; cbv iota. eexists _, _. split; [reflexivity|]. apply does_exceeded; [exact G|lia|].
        intros s R E. apply (lstep_write _ d _ _ _ _ _ B). right. destruct (exceeded_accept d s l R E) as [-> X]. auto. }
    rewrite (lbind_some _ _ _ _ _ (SyncBuffer_ok _ _ G H)). cbn [negb]; cbv iota. rewrite (lbind_some _ _ _ (l_start_pos l + l_cur l) (set_dest (full l) l)) by (apply (get_lpos_ok (set_dest (full l) l)); lcbn; lia).
    unfold bind at 1. unfold get at 1. cbv beta iota zeta. lcbn. pose proof (g_max64 _ _ G) as M64. unfold u64. rewrite Z.mod_small by lia. set (n := l_max_pos l - (l_start_pos l + l_cur l)) in *.
    destruct (zlen d <=? n) eqn:Q.
    - destruct (W delta (full l) (g_inv _ _ G) (g_dest _ _ G) (good_link _ _ G)) as (b & w & E & BO & M). rewrite (lbind_on_dest _ _ _ b w) by (lcbn; exact E).
      destruct (MakeBuffer_ok (set_dest w (set_dest (full l) l))) as (l' & E2 & OU); [lcbn; exact (m_inv _ _ _ _ _ M)|lcbn; exact M0|lcbn; rewrite (proj2 (good_open _ _ G)); discriminate|].
      rewrite (lbind_some _ _ _ _ _ E2). exists b, l'. split; [reflexivity|]. cbn [set_dest l_dest] in OU.
      assert (OU' : outcome l w l') by (destruct OU; constructor; assumption).
      apply (does_moves True (LWriter c) d (RBool b) l w l' G H M OU'); auto.
      + pose proof (KE _ _ _ E) as X. unfold full in X. ws_in X. exact X.
      + intros O. rewrite O in BO. subst b. auto.
      + destruct c; discriminate.
      + rewrite BC. lia.
      + intros s R EX. pose proof (rel_end _ _ _ R) as RE. unfold end_pos in RE. rewrite EX in RE. change (zlen (@nil Z)) with 0 in RE. split; [rewrite (r_limit _ _ _ R); unfold n in Q; lia|]. split; [|auto].
        intros O. rewrite O in BO. subst b. apply (lstep_write _ d _ _ _ _ _ B). left. auto.
    - destruct (PA n ltac:(unfold n in *; lia) ltac:(unfold n in *; lia) delta (full l) (g_inv _ _ G) (g_dest _ _ G) (good_link _ _ G)) as (b & w & E & BO & M). rewrite (lbind_on_dest _ _ _ b w) by (lcbn; exact E).
      assert (N0 : 0 <= n < zlen d) by (unfold n in *; lia). assert (ZN : zlen (ztake n d) = n) by (rewrite zlen_ztake; lia).
      assert (OP : w_open w = true) by (rewrite (fr_open _ _ (m_frame _ _ _ _ _ M)); pose proof (g_dest _ _ G) as D; apply ok_iff in D; apply D).
      destruct b; cbn [negb]; cbv iota.
      + rewrite FailLimitExceeded_ok by (lcbn; exact (m_inv _ _ _ _ _ M)). eexists _, _. split; [reflexivity|].
        destruct (m_view _ _ _ _ _ M (eq_sym BO)) as [L1 V].
        split; [apply bad_safe, flimit_bad; lcbn; [exact (m_inv _ _ _ _ _ M)|lia|intros _; exists delta; exact L1]|]. split; [split; reflexivity|].
        intros s R _. left. pose proof (rel_no_excess _ _ R H) as EX. destruct (rel_within _ _ _ R EX) as (_ & W2 & _). rewrite W2 in V. cbn [fst snd] in V.
        pose proof (rel_end _ _ _ R) as RE. unfold end_pos in RE. rewrite EX in RE. change (zlen (@nil Z)) with 0 in RE. assert (NE : n = a_limit s - a_pos s) by (rewrite (r_limit _ _ _ R); unfold n; lia).
        exists (exceeded (accept delta d (a_limit s) s)). split.
        { apply (lstep_write _ d _ _ _ _ _ B). right. split; [|auto]. unfold accept. cbn [a_excess]. rewrite EX. cbn [app]. rewrite <- NE. intros X. apply (f_equal zlen) in X. rewrite zlen_zdrop in X. change (zlen (@nil Z)) with 0 in X. lia. }
        assert (K : lok (flimit (set_dest w (set_dest (full l) l))) = false) by (unfold lok, flimit; lcbn; apply andb_false_r).
        constructor.
        * rewrite K. reflexivity.
        * intros _. exact (r_known _ _ _ R).
        * intros _ X. rewrite K in X. discriminate.
        * intros _ _. unfold exceeded, accept. cbn [a_content a_pos]. rewrite EX. cbn [app]. rewrite <- NE. unfold flimit. lcbn. split; [|split].
          -- constructor; [exact (m_inv _ _ _ _ _ M)|intros _; split; [exact L1|exact V]|rewrite OP; discriminate].
          -- intros (NF & FT & _) RO. left. split; [exact (eq_sym BO)|]. split; [exact (proj1 (m_nofail _ _ _ _ _ M NF))|]. apply (m_live _ _ _ _ _ M Logic.I NF FT). rewrite W2. cbn [snd]. unfold room in RO. rewrite BC in RO. unfold end_pos in RO. rewrite EX in RO. change (zlen (@nil Z)) with 0 in RO. lia.
          -- intros _. rewrite Z.add_0_r. symmetry. exact (r_limit _ _ _ R).
      + destruct (MakeBuffer_ok (set_dest w (set_dest (full l) l))) as (l' & E2 & OU); [lcbn; exact (m_inv _ _ _ _ _ M)|lcbn; exact M0|lcbn; rewrite (proj2 (good_open _ _ G)); discriminate|].
        rewrite (lbind_some _ _ _ _ _ E2). exists false, l'. split; [reflexivity|]. cbn [set_dest l_dest] in OU. assert (OU' : outcome l w l') by (destruct OU; constructor; assumption).
        assert (O : ok w = false) by congruence. split; [apply bad_safe, (outcome_bad _ _ _ OU' M64 (m_inv _ _ _ _ _ M)); [left; exact O|rewrite O; discriminate]|]. split; [exact (opts_outcome _ _ _ OU')|].
        intros s R _. right. split; [auto|]. destruct (o_bad _ _ _ OU' (or_introl O)) as (B1 & _). split; [exact B1|]. split; [rewrite (o_dest _ _ _ OU'); apply closing_none; [exact (m_inv _ _ _ _ _ M)|exact O|exact OP]|].
        intros ((NF & FT & _) & RO & _). pose proof (rel_no_excess _ _ R H) as EX. destruct (rel_within _ _ _ R EX) as (_ & W2 & _).
        destruct (m_live _ _ _ _ _ M Logic.I NF FT) as [X _]; [|congruence]. rewrite W2. cbn [snd]. unfold room in RO. rewrite BC in RO. unfold end_pos in RO. rewrite EX in RO. change (zlen (@nil Z)) with 0 in RO. lia.
  Qed.
End S.
