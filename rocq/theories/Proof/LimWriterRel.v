(** The relation between the limiting writer and its specification. *)
From Verif Require Import Base.Bytes Spec.PosixFile Model.BufferSizer Model.BufferedWriter.
From Verif Require Import Proof.PosixProof Proof.WriterLemmas Proof.WriterSteps Proof.WriterCalls Proof.WriterDead Proof.WriterSeeks Proof.WriterMore Proof.WriterKeep.
From Verif Require Import Model.LimitingWriter Spec.LimitingWriterSpec Proof.LimWriterLemmas.
Import BufferedWriter(writer, call).
Notation file w := (f_content (w_fd w)).
Notation kMax := kMaxFdPosition.

(** When the limiting writer has failed or is closed *)
Record fin (delta : Z) (c : list Z) (p : Z) (w : writer) : Prop := {
  f_inv : inv w; f_view : ok w = true -> link delta w /\ view delta w = (c, p);
  f_closed : w_open w = false -> w_failed w = false -> file w = c /\ w_start_pos w + w_cur w = p }.
Definition finlive (delta : Z) (w : writer) : Prop := (ok w = true /\ nofail w /\ fits delta w) \/ (w_open w = false /\ w_failed w = false).
Lemma closing_fin delta c p w v : fin delta c p w -> closing w = Some v -> v = (c, p).
Proof.
  intros [I1 V C] H. unfold closing in H. destruct (ok w) eqn:O.
  - destruct (V eq_refl) as [L1 VW]. destruct (Close_ok delta w I1 O L1) as (b & w' & E & I2 & OPN & _ & _ & B & _). rewrite E in H. destruct b; [|discriminate].
    destruct (B eq_refl) as [F1 F2]. rewrite VW in F1, F2. cbn [fst snd] in F1, F2. injection H as <-. unfold BufferedWriterSpec.pos. rewrite F1. f_equal.
    assert (X : ok w' = false) by (unfold ok; rewrite OPN; reflexivity).
    pose proof (i_notok _ I2 X). pose proof (i_cur _ I2). lia.
  - destruct (w_open w) eqn:OP.
    + destruct (dead_Close w I1 O OP) as (w' & E & _). rewrite E in H. discriminate.
    + unfold BufferedWriter.Close in H. rewrite WriterLemmas.bind_get, OP in H. cbn [negb] in H. cbv iota in H. unfold BufferedWriter.ret in H. destruct (w_failed w) eqn:F; cbn [negb] in H; [discriminate|]. injection H as <-.
      destruct (C eq_refl eq_refl) as [-> X]. unfold BufferedWriterSpec.pos. rewrite X. reflexivity.
Qed.
Lemma closing_live delta c p w : fin delta c p w -> finlive delta w -> closing w = Some (c, p).
Proof.
  intros F LV. assert (X : exists v, closing w = Some v).
  { destruct LV as [(O & N & FT)|[OP FA]].
    - destruct (f_view _ _ _ _ F O) as [L1 _]. destruct (Close_ok delta w (f_inv _ _ _ _ F) O L1) as (b & w' & E & _ & _ & _ & _ & _ & _ & B). specialize (B N FT). subst b. unfold closing. rewrite E. eauto.
    - unfold closing, BufferedWriter.Close. rewrite WriterLemmas.bind_get, OP. cbn [negb]. cbv iota. unfold BufferedWriter.ret. rewrite FA. cbn. eauto. }
  destruct X as [v X]. rewrite X. f_equal. exact (closing_fin _ _ _ _ _ F X).
Qed.
Lemma closing_none w : inv w -> ok w = false -> w_open w = true -> closing w = None.
Proof. intros I1 O OP. unfold closing. destruct (dead_Close w I1 O OP) as (w' & E & _). rewrite E. reflexivity. Qed.
Lemma fin_failed delta c p w : inv w -> ok w = false -> w_open w = true -> fin delta c p w.
Proof. intros I1 O OP. constructor; [exact I1|rewrite O; discriminate|rewrite OP; discriminate]. Qed.

Section S.
  Variables (delta : Z) (random : bool).
  Record rel (s : state) (l : limiter) : Prop := {
    r_good : good delta l; r_full : view delta (full l) = (write_at (a_content s) (a_pos s + delta) (a_excess s), a_pos s + zlen (a_excess s));
    r_cut : view delta (cutw l) = (a_content s, a_pos s); r_limit : a_limit s = l_max_pos l; r_high : a_high s <= a_limit s; r_pos : a_pos s <= a_high s;
    r_bound : w_written (l_dest l) = 0 \/ w_start_pos (l_dest l) + w_written (l_dest l) <= a_high s; r_ex : a_excess s <> [] -> a_pos s = a_limit s;
    r_ok : a_ok s = true; r_known : a_known s = true }.
  Definition live (l : limiter) : Prop := nofail (l_dest l) /\ fits delta (full l) /\ (random = true -> seekable (l_dest l)).

  Lemma rel_end s l : rel s l -> l_start_pos l + l_cur l = end_pos s.
  Proof. intros R. pose proof (f_equal snd (r_full _ _ R)) as V. unfold view in V. cbn [snd] in V. unfold full in V. ws_in V. rewrite (g_start _ _ (r_good _ _ R)). exact V. Qed.
  Lemma rel_place s l : rel s l -> 0 <= a_pos s + delta /\ 0 <= a_pos s.
  Proof.
    intros R. pose proof (f_equal snd (r_cut _ _ R)) as V. cbn [snd] in V. pose proof (cutw_inv _ _ (r_good _ _ R)) as I1.
    assert (L1 : link delta (cutw l)) by (apply link_buf, (g_link _ _ (r_good _ _ R))). pose proof (view_pos delta (cutw l) I1 L1) as VP. rewrite V in VP. split; [exact VP|].
    unfold view in V. cbn [snd] in V. pose proof (i_start _ I1). pose proof (i_cur _ I1). lia.
  Qed.
  Lemma rel_nonneg s l : rel s l -> l_start_pos l <= a_pos s.
  Proof.
    intros R. pose proof (f_equal snd (r_cut _ _ R)) as V. unfold view in V. cbn [snd] in V. unfold cutw in V. ws_in V. rewrite (g_start _ _ (r_good _ _ R)). pose proof (good_cur _ _ (r_good _ _ R)). pose proof (g_max _ _ (r_good _ _ R)). lia.
  Qed.
  Lemma rel_within s l : rel s l -> a_excess s = [] -> l_start_pos l + l_cur l <= l_max_pos l /\ view delta (full l) = (a_content s, a_pos s) /\ cutw l = full l.
  Proof.
    intros R E. pose proof (rel_end _ _ R) as X. unfold end_pos in X. rewrite E in X. change (zlen (@nil Z)) with 0 in X. pose proof (r_limit _ _ R). pose proof (r_high _ _ R). pose proof (r_pos _ _ R).
    split; [lia|]. split; [rewrite (r_full _ _ R), E, write_at_nil; change (zlen (@nil Z)) with 0; rewrite Z.add_0_r; reflexivity|].
    unfold cutw, full. rewrite Z.min_l by lia. reflexivity.
  Qed.
  Lemma rel_beyond s l : rel s l -> a_excess s <> [] -> l_max_pos l < l_start_pos l + l_cur l.
  Proof.
    intros R E. pose proof (rel_end _ _ R) as X. pose proof (r_ex _ _ R E). pose proof (r_limit _ _ R). unfold end_pos in X. assert (0 < zlen (a_excess s)) by (destruct (a_excess s); [congruence|]; rewrite zlen_cons; pose proof (zlen_nonneg l0); lia). lia.
  Qed.
  Lemma live_cut s l : rel s l -> live l -> fits delta (cutw l).
  Proof. intros R (_ & F & _). unfold fits, used, cutw, full in *. ws. ws_in F. lia. Qed.
  (** The limit was exceeded *)
  Lemma exceeded_fin s l : rel s l -> fin delta (a_content s) (a_pos s) (cutw l) /\ (live l -> finlive delta (cutw l)).
  Proof.
    intros R. pose proof (r_good _ _ R) as G. split.
    - constructor; [exact (cutw_inv _ _ G)|intros _; split; [apply link_buf, (g_link _ _ G)|exact (r_cut _ _ R)]|]. intros OP. exfalso. pose proof (g_dest _ _ G) as D. apply ok_iff in D as [D _]. unfold cutw in OP. ws_in OP. congruence.
    - intros LV. left. split; [exact (g_dest _ _ G)|]. split; [exact (proj1 LV)|exact (live_cut _ _ R LV)].
  Qed.
  Lemma accept_all d s : a_excess s = [] -> a_pos s + zlen d <= a_limit s ->
    accept delta d (a_limit s) s = {| a_content := write_at (a_content s) (a_pos s + delta) d; a_pos := a_pos s + zlen d; a_excess := []; a_limit := a_limit s;
      a_high := Z.max (a_high s) (a_pos s + zlen d); a_ok := a_ok s; a_known := a_known s |}.
  Proof. intros E H. unfold accept. rewrite E. cbn [app]. rewrite ztake_all by lia. rewrite zdrop_all by lia. reflexivity. Qed.
  Lemma accept_nil s l : rel s l -> accept delta [] (a_limit s) s = s.
  Proof.
    intros R. unfold accept. rewrite app_nil_r. destruct (a_excess s) as [|x e] eqn:E.
    - rewrite ztake_nil, zdrop_nil. change (zlen (@nil Z)) with 0. rewrite write_at_nil, Z.add_0_r, Z.max_l by apply (r_pos _ _ R). destruct s. cbn in *. subst. reflexivity.
    - assert (X : a_pos s = a_limit s) by (apply (r_ex _ _ R); congruence). rewrite X, Z.sub_diag, (ztake_nonpos 0), (zdrop_nonpos 0) by lia. change (zlen (@nil Z)) with 0. rewrite write_at_nil, Z.add_0_r.
      pose proof (r_pos _ _ R). rewrite Z.max_l by lia. destruct s. cbn in *. subst. reflexivity.
  Qed.
  Lemma rand_next w w' : frame w w' -> (nofail w -> nofail w') -> w_random w <> None \/ nofail w -> w_random w' <> None \/ nofail w'.
  Proof. intros F N [H|H]; [left; rewrite (fr_rand _ _ F H); exact H|right; auto]. Qed.

  (** The state with the position and content moved *)
  Lemma rel_move s l w l' c p : rel s l -> a_excess s = [] -> outcome l w l' -> inv w -> ok w = true -> link delta w -> view delta w = (c, p) -> p <= a_limit s ->
    (w_random w <> None \/ nofail w) -> (w_written w = 0 \/ w_start_pos w + w_written w <= Z.max (a_high s) p) -> lok l' = true /\ rel (move c p s) l' /\ full l' = w.
  Proof.
    intros R E OU I1 O L1 V P RA B. pose proof (r_good _ _ R) as G. pose proof (f_equal snd V) as V2. unfold view in V2. cbn [snd] in V2. pose proof (i_cur _ I1) as IC. pose proof (r_limit _ _ R) as RL.
    destruct (outcome_good delta _ _ _ OU (g_ok _ _ G) (g_max64 _ _ G) I1 O L1 ltac:(lia) RA) as (G' & FU & CU). specialize (CU ltac:(lia)).
    split; [exact (g_ok _ _ G')|]. split; [|exact FU].
    constructor; cbn [move a_content a_pos a_excess a_limit a_high a_ok a_known]; auto.
    - rewrite FU, V, write_at_nil. change (zlen (@nil Z)) with 0. rewrite Z.add_0_r. reflexivity.
    - rewrite CU. exact V.
    - rewrite (o_max _ _ _ OU). exact RL.
    - pose proof (r_high _ _ R). lia.
    - lia.
    - rewrite (o_dest _ _ _ OU). exact B.
    - congruence.
    - exact (r_ok _ _ R).
    - exact (r_known _ _ R).
  Qed.
  (** After a function of the original writer which does not move the cursor otherwise than by writing *)
  Lemma moves_spec P d s l w l' : rel s l -> a_excess s = [] -> moves P delta (full l) d w -> outcome l w l' ->
    (w_written w = 0 \/ (w_written w = w_written (l_dest l) /\ w_start_pos w = w_start_pos (l_dest l))) -> a_pos s + zlen d <= a_limit s ->
    safe l' /\
    (ok w = true -> lok l' = true /\ rel (accept delta d (a_limit s) s) l' /\ full l' = w /\ (live l -> a_pos s + zlen d + Z.max 0 delta <= kMax -> P -> live l')) /\
    (ok w = false -> lok l' = false /\ closing (l_dest l') = None /\ ~ (live l /\ a_pos s + zlen d + Z.max 0 delta <= kMax /\ P)).
  Proof.
    intros R E M OU B H. pose proof (r_good _ _ R) as G. destruct (rel_within _ _ R E) as (W1 & W2 & _).
    assert (RA : w_random w <> None \/ nofail w) by (apply (rand_next (full l)); [exact (m_frame _ _ _ _ _ M)|intros N; exact (proj1 (m_nofail _ _ _ _ _ M N))|exact (g_rand _ _ G)]).
    assert (OP : w_open w = true) by (rewrite (fr_open _ _ (m_frame _ _ _ _ _ M)); pose proof (g_dest _ _ G) as D; apply ok_iff in D; apply D).
    split; [apply (outcome_safe _ _ _ OU (g_ok _ _ G) (g_max64 _ _ G) (m_inv _ _ _ _ _ M)); [intros O; exists delta; apply (m_view _ _ _ _ _ M O)|intros _; exact RA]|]. split.
    - intros O. destruct (m_view _ _ _ _ _ M O) as [L1 V]. rewrite W2 in V. cbn [fst snd] in V.
      destruct (rel_move s l w l' _ _ R E OU (m_inv _ _ _ _ _ M) O L1 V H RA) as (K & R' & FU).
      { destruct B as [B|[B1 B2]]; [left; exact B|]. rewrite B1, B2. destruct (r_bound _ _ R) as [X|X]; [left; exact X|right; lia]. }
      split; [exact K|]. rewrite accept_all by assumption. split; [exact R'|]. split; [exact FU|]. intros (N & F & SK) HK HP. destruct (m_nofail _ _ _ _ _ M N) as [N' SK']. unfold live. rewrite FU, (o_dest _ _ _ OU).
      split; [exact N'|]. split; [apply (m_live _ _ _ _ _ M HP N F); rewrite W2; cbn [snd]; exact HK|]. intros X. apply SK'. exact (SK X).
    - intros O. destruct (o_bad _ _ _ OU (or_introl O)) as (B1 & _). split; [exact B1|]. split; [rewrite (o_dest _ _ _ OU); apply closing_none; [exact (m_inv _ _ _ _ _ M)|exact O|exact OP]|].
      intros ((N & F & SK) & HK & HP). destruct (m_live _ _ _ _ _ M HP N F) as [X _]; [rewrite W2; cbn [snd]; exact HK|congruence].
  Qed.

  (** Storing bytes in the buffer *)
  Lemma store_spec d s l : rel s l -> zlen d <= lavailable l ->
    lput d l = Some (tt, stored d l) /\ rel (accept delta d (a_limit s) s) (stored d l) /\ (live l -> end_pos s + zlen d + Z.max 0 delta <= kMax -> live (stored d l)).
  Proof.
    intros R A. pose proof (r_good _ _ R) as G. destruct (lput_ok delta d l G A) as (E & G' & M & PART). split; [exact E|].
    pose proof (good_full_ok _ _ G') as OF. destruct (m_view _ _ _ _ _ M OF) as [L1 V].
    pose proof (rel_end _ _ R) as RE. pose proof (r_limit _ _ R) as RL. pose proof (r_high _ _ R) as RH. pose proof (r_pos _ _ R) as RP. pose proof (zlen_nonneg d) as ZD. pose proof (rel_place _ _ R) as [PL PL0].
    pose proof (good_cur _ _ G) as (C1 & C2 & C3). pose proof (rel_nonneg _ _ R) as SP. pose proof (i_buf _ (g_inv _ _ G)) as IB. unfold used, full in IB. ws_in IB.
    assert (BD : w_written (l_dest l) <= Z.max 0 (a_limit s - l_start_pos l)).
    { rewrite (g_start _ _ G). destruct (r_bound _ _ R) as [X|X]; [rewrite X; lia|]. lia. }
    split.
    - constructor; cbn [accept a_content a_pos a_excess a_limit a_high a_ok a_known].
      + exact G'.
      + rewrite V, (r_full _ _ R). cbn [fst snd]. set (n := a_limit s - a_pos s). set (x := a_excess s ++ d).
        rewrite <- Z.add_assoc, (Z.add_comm (zlen (a_excess s)) delta), Z.add_assoc. rewrite write_at_app by exact PL. fold x.
        assert (X1 : a_pos s + zlen (ztake n x) + delta = a_pos s + delta + zlen (ztake n x)) by lia. rewrite X1, write_at_app by exact PL. rewrite ztake_zdrop. f_equal.
        rewrite <- !Z.add_assoc. f_equal. rewrite <- zlen_app. fold x. rewrite <- zlen_app, ztake_zdrop. reflexivity.
      + (* the part up to the limit *)
        set (n := a_limit s - a_pos s). assert (N0 : 0 <= n) by (unfold n; lia).
        destruct (a_excess s) as [|y ex] eqn:EX.
        * destruct (rel_within _ _ R EX) as (W1 & W2 & _). cbn [app]. assert (LE : l_start_pos l + l_cur l = a_pos s) by (rewrite RE; unfold end_pos; rewrite EX; change (zlen (@nil Z)) with 0; lia).
          destruct (PART (ztake n d)) as (w1 & _ & M1 & W); [rewrite zlen_ztake; lia|].
          assert (O1 : ok w1 = true) by (rewrite W; exact (g_dest _ _ G)). destruct (m_view _ _ _ _ _ M1 O1) as [_ V1]. rewrite W2 in V1. cbn [fst snd] in V1. rewrite <- V1.
          unfold view. f_equal; [|rewrite W; unfold cutw, stored; lcbn; ws; rewrite zlen_ztake; unfold n in *; lia].
          rewrite W. unfold cutw, stored, data, used. lcbn. ws. f_equal. unfold lavailable in A. rewrite zlen_ztake.
          destruct (Z.le_gt_cases (zlen d) n) as [Y|Y].
          -- rewrite (ztake_all n d) by lia. replace (Z.max 0 (Z.min n (zlen d))) with (zlen d) by lia. replace (Z.min (l_cur l + zlen d) (l_max_pos l - l_start_pos l)) with (l_cur l + zlen d) by (unfold n in Y; lia). reflexivity.
          -- replace (Z.max 0 (Z.min n (zlen d))) with n by lia. replace (Z.min (l_cur l + zlen d) (l_max_pos l - l_start_pos l)) with (l_cur l + n) by (unfold n in *; lia).
             replace (Z.max (l_cur l + n) (w_written (l_dest l))) with (l_cur l + n) by (unfold n in *; lia).
             rewrite (ztake_app_r (l_cur l + n) _ (d ++ _)) by (rewrite zlen_ztake; lia). rewrite (ztake_app_r (l_cur l + n) _ (ztake n d ++ _)) by (rewrite zlen_ztake; lia). f_equal.
             replace (l_cur l + n - zlen (ztake (l_cur l) (w_buf (l_dest l)))) with n by (rewrite zlen_ztake; lia).
             rewrite (ztake_app_l n d) by lia. rewrite (ztake_app_l n (ztake n d)) by (rewrite zlen_ztake; lia). rewrite ztake_ztake, Z.min_id. reflexivity.
        * assert (X : a_pos s = a_limit s) by (apply (r_ex _ _ R); congruence). assert (N1 : n = 0) by (unfold n; lia). rewrite N1, (ztake_nonpos 0), write_at_nil by lia. change (zlen (@nil Z)) with 0. rewrite Z.add_0_r.
          rewrite <- (r_cut _ _ R). pose proof (rel_beyond _ _ R ltac:(congruence)) as BY. unfold view, cutw, stored, data, used. lcbn. ws. f_equal; [|lia]. f_equal.
          replace (Z.min (l_cur l + zlen d) (l_max_pos l - l_start_pos l)) with (l_max_pos l - l_start_pos l) by lia. replace (Z.min (l_cur l) (l_max_pos l - l_start_pos l)) with (l_max_pos l - l_start_pos l) by lia.
          rewrite RL in BD. pose proof (g_max _ _ G) as GM. replace (Z.max (l_max_pos l - l_start_pos l) (w_written (l_dest l))) with (l_max_pos l - l_start_pos l) by lia.
          rewrite ztake_app_l by (rewrite zlen_ztake; lia). rewrite ztake_ztake. f_equal. lia.
      + unfold stored. lcbn. exact RL.
      + rewrite zlen_ztake. lia.
      + lia.
      + unfold stored. lcbn. ws. destruct (r_bound _ _ R) as [X|X]; [left; exact X|right; lia].
      + intros X. rewrite zlen_ztake. destruct (Z.le_gt_cases (zlen (a_excess s ++ d)) (a_limit s - a_pos s)) as [Y|Y]; [rewrite zdrop_all in X by lia; congruence|lia].
      + exact (r_ok _ _ R).
      + exact (r_known _ _ R).
    - intros (N & F & SK) HK. split; [exact N|]. split; [|exact SK]. apply (m_live _ _ _ _ _ M Logic.I N F). rewrite (r_full _ _ R). cbn [snd]. exact HK.
  Qed.
End S.
