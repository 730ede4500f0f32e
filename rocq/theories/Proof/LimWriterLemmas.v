(** The invariant of the limiting writer, and its internal functions. *)
From Verif Require Import Base.Bytes Spec.PosixFile Model.BufferSizer Model.BufferedWriter.
From Verif Require Import Proof.PosixProof Proof.WriterLemmas Proof.WriterSteps Proof.WriterCalls Proof.WriterDead Proof.WriterSeeks Proof.WriterMore Proof.WriterKeep.
From Verif Require Import Model.LimitingWriter Spec.LimitingWriterSpec.
Import BufferedWriter(writer, call).

Ltac lcbn := unfold lavailable; cbn [set_dest set_lstate set_buffer set_max l_dest l_failed l_open l_start_pos l_null l_cur l_lim l_max_pos l_exact l_owning lavailable fst snd].
Lemma lbind_some {A B} (m : L A) (f : A -> L B) l a l' : m l = Some (a, l') -> bind m f l = f a l'.
Proof. intros E. unfold bind. rewrite E. reflexivity. Qed.
Lemma lbind_assert {B} b (f : unit -> L B) l : b = true -> bind (assert b) f l = f tt l.
Proof. intros ->. reflexivity. Qed.
Lemma lbind_on_dest {A B} (m : BufferedWriter.M A) (f : A -> L B) l a w : m (l_dest l) = Some (a, w) -> bind (on_dest m) f l = f a (set_dest w l).
Proof. intros E. unfold bind, on_dest. rewrite E. reflexivity. Qed.
Lemma lbind_bind {A B C} (m : L A) (f : A -> L B) (g : B -> L C) l : bind (bind m f) g l = bind m (fun a => bind (f a) g) l.
Proof. unfold bind. destruct (m l) as [[a l']|]; reflexivity. Qed.
Lemma set_dest_id l : set_dest (l_dest l) l = l.
Proof. destruct l. reflexivity. Qed.
Lemma set_buf_id w : BufferedWriter.set_buf (w_buf w) (w_cur w) (w_lim w) w = w.
Proof. destruct w. reflexivity. Qed.

(** The original writer with the cursor of the limiting writer; and with the cursor not beyond the limit *)
Definition full (l : limiter) : writer := set_buf (w_buf (l_dest l)) (l_cur l) (w_lim (l_dest l)) (l_dest l).
Definition cutw (l : limiter) : writer := set_buf (w_buf (l_dest l)) (Z.min (l_cur l) (l_max_pos l - l_start_pos l)) (w_lim (l_dest l)) (l_dest l).
Record good (delta : Z) (l : limiter) : Prop := {
  g_ok : lok l = true; g_dest : ok (l_dest l) = true; g_inv : inv (full l); g_inv0 : inv (l_dest l); g_link : link delta (l_dest l); g_null : l_null l = false;
  g_start : l_start_pos l = w_start_pos (l_dest l); g_lim : l_lim l = w_lim (l_dest l); g_max : l_start_pos l <= l_max_pos l; g_max64 : l_max_pos l < 2 ^ 64;
  g_rand : w_random (l_dest l) <> None \/ nofail (l_dest l) }.
(** A limiting writer which has failed or is closed *)
Record bad (l : limiter) : Prop := {
  b_ok : lok l = false; b_cur : l_cur l = 0; b_lim : l_lim l = 0; b_start : 0 <= l_start_pos l <= l_max_pos l; b_max64 : l_max_pos l < 2 ^ 64;
  b_inv : inv (l_dest l); b_link : ok (l_dest l) = true -> exists delta, link delta (l_dest l) }.
Definition safe (l : limiter) : Prop := (lok l = true -> exists delta, good delta l) /\ (lok l = false -> bad l).
Lemma link_buf delta w b c n : link delta w -> link delta (set_buf b c n w).
Proof. intros []. constructor; ws; assumption. Qed.
Lemma link_buf_inv delta w b c n : link delta (set_buf b c n w) -> link delta w.
Proof. intros []. ws_in l_pos. constructor; assumption. Qed.
Lemma good_link delta l : good delta l -> link delta (full l).
Proof. intros G. apply link_buf, (g_link _ _ G). Qed.
Lemma good_full_ok delta l : good delta l -> ok (full l) = true.
Proof. intros G. exact (g_dest _ _ G). Qed.
Lemma good_open delta l : good delta l -> l_open l = true /\ l_failed l = false.
Proof. intros G. pose proof (g_ok _ _ G) as K. unfold lok in K. destruct (l_open l), (l_failed l); cbn in K; try discriminate; auto. Qed.
Lemma good_cur delta l : good delta l -> 0 <= l_cur l <= l_lim l /\ 0 <= l_start_pos l /\ l_start_pos l + l_lim l <= 2 ^ 64 - 1.
Proof. intros G. pose proof (i_cur _ (g_inv _ _ G)) as X. pose proof (i_start _ (g_inv _ _ G)) as Y. pose proof (i_lim _ (g_inv _ _ G)) as W. unfold full in *. ws_in X. ws_in Y. ws_in W. rewrite (g_lim _ _ G), (g_start _ _ G). lia. Qed.
Lemma get_lpos_ok l : l_start_pos l + l_lim l <= 2 ^ 64 - 1 -> get_lpos l = Some (l_start_pos l + l_cur l, l).
Proof. intros H. unfold get_lpos, bind, get, assert, ret. replace (l_start_pos l <=? 2 ^ 64 - 1 - l_lim l) with true by lia. reflexivity. Qed.
Lemma good_get_lpos delta l : good delta l -> get_lpos l = Some (l_start_pos l + l_cur l, l).
Proof. intros G. apply get_lpos_ok. apply (good_cur _ _ G). Qed.
Lemma annotate_ok l : inv (l_dest l) -> annotate_dest l = Some (tt, l).
Proof.
  intros I1. unfold annotate_dest, bind, get. destruct (BufferedWriter.w_open (l_dest l)); [|reflexivity]. unfold on_dest. rewrite (get_pos_ok _ I1). rewrite set_dest_id. reflexivity.
Qed.
(** After FailLimitExceeded() *)
Definition flimit (l : limiter) : limiter :=
  {| l_dest := l_dest l; l_failed := true; l_open := l_open l; l_start_pos := l_max_pos l; l_null := true; l_cur := 0; l_lim := 0; l_max_pos := l_max_pos l; l_exact := l_exact l; l_owning := l_owning l |}.
Lemma FailLimitExceeded_ok l : inv (l_dest l) -> FailLimitExceeded l = Some (false, flimit l).
Proof.
  intros I1. unfold FailLimitExceeded. cbv [bind get modify]. rewrite annotate_ok by exact I1. unfold FailWithoutAnnotation. cbv [bind get modify ret]. lcbn. unfold flimit. destruct (l_failed l) eqn:F; [unfold set_buffer; rewrite F|]; reflexivity.
Qed.
Lemma flimit_bad l : inv (l_dest l) -> 0 <= l_max_pos l < 2 ^ 64 -> (ok (l_dest l) = true -> exists delta, link delta (l_dest l)) -> bad (flimit l).
Proof. intros I1 M K. constructor; unfold flimit; lcbn; try reflexivity; try lia; try assumption. unfold lok. lcbn. apply andb_false_r. Qed.

Lemma cutw_inv delta l : good delta l -> inv (cutw l).
Proof.
  intros G. pose proof (g_inv _ _ G) as I1. pose proof (g_max _ _ G). pose proof (good_cur _ _ G) as (C1 & C2 & C3). pose proof (g_lim _ _ G) as GL.
  assert (B : used (cutw l) <= zlen (w_buf (l_dest l))).
  { pose proof (i_buf _ I1) as B. unfold used, full, cutw in *. ws. ws_in B. lia. }
  unfold full in I1. destruct I1. unfold cutw. constructor; unfold used, ok in *; ws; auto; lia.
Qed.
(** SyncBuffer() *)
Lemma SyncBuffer_ok delta l : good delta l -> l_start_pos l + l_cur l <= l_max_pos l -> SyncBuffer l = Some (true, set_dest (full l) l).
Proof.
  intros G H. unfold SyncBuffer. rewrite (lbind_some _ _ _ _ _ (good_get_lpos _ _ G)). cbv [bind get]. replace (l_max_pos l <? _) with false by lia.
  unfold set_dest_cursor. cbv [bind get modify ret]. unfold assert. rewrite (g_null _ _ G). pose proof (good_cur _ _ G) as (C & _ & _). rewrite (g_lim _ _ G) in C. replace (_ && _) with true by lia. reflexivity.
Qed.
Lemma SyncBuffer_exceeded delta l : good delta l -> l_max_pos l < l_start_pos l + l_cur l -> SyncBuffer l = Some (false, flimit (set_dest (cutw l) l)).
Proof.
  intros G H. unfold SyncBuffer. rewrite (lbind_some _ _ _ _ _ (good_get_lpos _ _ G)). unfold bind at 1. unfold get at 1. cbv beta iota. replace (l_max_pos l <? _) with true by lia.
  unfold set_dest_cursor. cbv [bind get modify ret]. unfold assert. rewrite (g_null _ _ G). pose proof (good_cur _ _ G) as (C & _ & _). rewrite (g_lim _ _ G) in C. pose proof (g_max _ _ G) as GM.
  replace (_ && _) with true by (clear - H C GM; lia). replace (l_cur l - (l_start_pos l + l_cur l - l_max_pos l)) with (Z.min (l_cur l) (l_max_pos l - l_start_pos l)) by lia.
  fold (cutw l). rewrite FailLimitExceeded_ok; [reflexivity|]. lcbn. exact (cutw_inv _ _ G).
Qed.
Lemma exceeded_bad delta l : good delta l -> bad (flimit (set_dest (cutw l) l)).
Proof.
  intros G. apply flimit_bad; lcbn; [exact (cutw_inv _ _ G)|pose proof (good_cur _ _ G); pose proof (g_max _ _ G); pose proof (g_max64 _ _ G); lia|].
  intros _. exists delta. apply link_buf, (g_link _ _ G).
Qed.

(** MakeBuffer() *)
Record outcome (l : limiter) (w : writer) (l' : limiter) : Prop := {
  o_dest : l_dest l' = w; o_max : l_max_pos l' = l_max_pos l; o_exact : l_exact l' = l_exact l; o_owning : l_owning l' = l_owning l; o_open : l_open l' = l_open l;
  o_good : ok w = true -> w_start_pos w <= l_max_pos l ->
    lok l' = lok l /\ l_null l' = false /\ l_start_pos l' = w_start_pos w /\ l_cur l' = w_cur w /\ l_lim l' = w_lim w;
  o_bad : ok w = false \/ l_max_pos l < w_start_pos w -> lok l' = false /\ l_cur l' = 0 /\ l_lim l' = 0 /\ 0 <= l_start_pos l' <= l_max_pos l;
  o_limit : ok w = true -> l_max_pos l < w_start_pos w -> l_start_pos l' = l_max_pos l }.
Lemma MakeBuffer_ok l : inv (l_dest l) -> 0 <= l_max_pos l -> (l_failed l = true -> ok (l_dest l) = true) -> exists l', MakeBuffer l = Some (tt, l') /\ outcome l (l_dest l) l'.
Proof.
  intros I1 M F0. unfold MakeBuffer. set (w := l_dest l) in *. pose proof (i_start _ I1) as ST. cbv [bind get modify]. lcbn. fold w. destruct (l_max_pos l <? w_start_pos w) eqn:C.
  - rewrite FailLimitExceeded_ok by (lcbn; exact I1). cbv [ret]. lcbn. unfold flimit. lcbn. fold w. destruct (ok w) eqn:O.
    + eexists. split; [reflexivity|]. constructor; lcbn; auto; try lia; intros _; unfold lok; lcbn; rewrite andb_false_r; lia.
    + unfold FailWithoutAnnotation. cbv [bind get modify ret]. lcbn. eexists. split; [reflexivity|]. constructor; lcbn; auto; try lia; try discriminate; intros _; unfold lok; lcbn; rewrite andb_false_r; lia.
  - cbv [ret]. lcbn. fold w. destruct (ok w) eqn:O.
    + eexists. split; [reflexivity|]. constructor; lcbn; auto; try lia; intros [X|X]; first [discriminate|lia].
    + unfold FailWithoutAnnotation. cbv [bind get modify ret]. lcbn. destruct (l_failed l) eqn:F; [specialize (F0 eq_refl); congruence|].
      eexists. split; [reflexivity|]. constructor; lcbn; auto; try discriminate. all: intros; first [congruence|unfold lok; lcbn; cbn [negb]; rewrite ?andb_false_r; lia].
Qed.
Lemma outcome_good delta l w l' : outcome l w l' -> lok l = true -> l_max_pos l < 2 ^ 64 -> inv w -> ok w = true -> link delta w -> w_start_pos w <= l_max_pos l -> (w_random w <> None \/ nofail w) ->
  good delta l' /\ full l' = w /\ (w_start_pos w + w_cur w <= l_max_pos l -> cutw l' = w).
Proof.
  intros [D MX EX OW OP GO BA _] K M64 I1 O L1 ST R. destruct (GO O ST) as (G1 & G2 & G3 & G4 & G5).
  assert (FU : full l' = w) by (unfold full; rewrite D, G4; apply set_buf_id).
  split; [|split; [exact FU|]].
  - constructor; rewrite ?FU, ?D; auto; try congruence; lia.
  - intros C. unfold cutw. rewrite D, G4, G3, MX. rewrite Z.min_l by lia. apply set_buf_id.
Qed.
Lemma outcome_bad l w l' : outcome l w l' -> l_max_pos l < 2 ^ 64 -> inv w -> (ok w = false \/ l_max_pos l < w_start_pos w) -> (ok w = true -> exists delta, link delta w) -> bad l'.
Proof. intros [D MX EX OW OP GO BA _] M64 I1 H L1. destruct (BA H) as (B1 & B2 & B3 & B4). constructor; rewrite ?D, ?MX; auto. Qed.
Lemma outcome_safe l w l' : outcome l w l' -> lok l = true -> l_max_pos l < 2 ^ 64 -> inv w -> (ok w = true -> exists delta, link delta w) -> (ok w = true -> w_random w <> None \/ nofail w) -> safe l'.
Proof.
  intros OU K M64 I1 L1 R. destruct (ok w) eqn:O.
  - destruct (Z.le_gt_cases (w_start_pos w) (l_max_pos l)) as [H|H].
    + destruct (L1 eq_refl) as [delta L2]. destruct (outcome_good delta _ _ _ OU K M64 I1 O L2 H (R eq_refl)) as (G & _ & _). split; [intros _; exists delta; exact G|intros X; rewrite (g_ok _ _ G) in X; discriminate].
    + assert (B : bad l') by (apply (outcome_bad _ _ _ OU); auto; rewrite O; exact L1). split; [intros X; rewrite (b_ok _ B) in X; discriminate|auto].
  - assert (B : bad l') by (apply (outcome_bad _ _ _ OU); auto; rewrite O; discriminate). split; [intros X; rewrite (b_ok _ B) in X; discriminate|auto].
Qed.
Lemma bad_safe l : bad l -> safe l.
Proof. intros B. split; [intros X; rewrite (b_ok _ B) in X; discriminate|auto]. Qed.
Lemma good_safe delta l : good delta l -> safe l.
Proof. intros G. split; [intros _; exists delta; exact G|intros X; rewrite (g_ok _ _ G) in X; discriminate]. Qed.
Lemma full_set delta l : good delta l -> full (set_dest (full l) l) = full l.
Proof. reflexivity. Qed.

(** A call of a function of the original writer, with the cursor synchronized *)
Lemma with_dest_ok {A} (e : A) (m : BufferedWriter.M A) delta l a w : good delta l -> l_start_pos l + l_cur l <= l_max_pos l -> m (full l) = Some (a, w) -> inv w ->
  exists l', with_dest e m l = Some (a, l') /\ outcome l w l'.
Proof.
  intros G H E I1. unfold with_dest. unfold bind at 1. unfold get at 1. cbv beta iota. rewrite lbind_assert by (pose proof (g_max _ _ G); lia). rewrite (g_ok _ _ G). cbn [negb]; cbv iota.
  rewrite (lbind_some _ _ _ _ _ (SyncBuffer_ok _ _ G H)). cbn [negb]; cbv iota. rewrite (lbind_on_dest _ _ _ a w) by (lcbn; exact E).
  destruct (MakeBuffer_ok (set_dest w (set_dest (full l) l))) as (l' & E2 & OU).
  - lcbn. exact I1.
  - lcbn. pose proof (g_max _ _ G). pose proof (good_cur _ _ G). lia.
  - lcbn. rewrite (proj2 (good_open _ _ G)). discriminate.
  - rewrite (lbind_some _ _ _ _ _ E2). exists l'. split; [reflexivity|]. destruct OU. constructor; lcbn; assumption.
Qed.
Lemma with_dest_exceeded {A} (e : A) (m : BufferedWriter.M A) delta l : good delta l -> l_max_pos l < l_start_pos l + l_cur l ->
  with_dest e m l = Some (e, flimit (set_dest (cutw l) l)).
Proof.
  intros G H. unfold with_dest. unfold bind at 1. unfold get at 1. cbv beta iota. rewrite lbind_assert by (pose proof (g_max _ _ G); lia). rewrite (g_ok _ _ G). cbn [negb]; cbv iota.
  rewrite (lbind_some _ _ _ _ _ (SyncBuffer_exceeded _ _ G H)). reflexivity.
Qed.
Lemma with_dest_bad {A} (e : A) (m : BufferedWriter.M A) l : bad l -> with_dest e m l = Some (e, l).
Proof.
  intros B. unfold with_dest. unfold bind at 1. unfold get at 1. cbv beta iota. rewrite lbind_assert by (pose proof (b_start _ B); lia). rewrite (b_ok _ B). reflexivity.
Qed.

(** Storing bytes in the buffer *)
Definition stored (d : list Z) (l : limiter) : limiter :=
  set_buffer (l_null l) (l_start_pos l) (l_cur l + zlen d) (l_lim l)
    (set_dest (set_buf (ztake (l_cur l) (w_buf (l_dest l)) ++ d ++ zdrop (l_cur l + zlen d) (w_buf (l_dest l))) (w_cur (l_dest l)) (w_lim (l_dest l)) (l_dest l)) l).
Lemma lput_ok delta d l : good delta l -> zlen d <= lavailable l ->
  lput d l = Some (tt, stored d l) /\ good delta (stored d l) /\ moves True delta (full l) d (full (stored d l)) /\
  forall d1, zlen d1 <= zlen d -> exists w1, BufferedWriter.put d1 (full l) = Some (tt, w1) /\ moves True delta (full l) d1 w1 /\
    w1 = set_buf (ztake (l_cur l) (w_buf (l_dest l)) ++ d1 ++ zdrop (l_cur l + zlen d1) (w_buf (l_dest l))) (l_cur l + zlen d1) (w_lim (l_dest l)) (l_dest l).
Proof.
  intros G A. pose proof (good_cur _ _ G) as (C1 & C2 & C3). pose proof (i_buf _ (g_inv _ _ G)) as IB. unfold used, full in IB. ws_in IB. unfold lavailable in A. pose proof (zlen_nonneg d) as ZD.
  assert (PUT : forall d1, zlen d1 <= zlen d -> exists w1, BufferedWriter.put d1 (full l) = Some (tt, w1) /\ moves True delta (full l) d1 w1 /\
    w1 = set_buf (ztake (l_cur l) (w_buf (l_dest l)) ++ d1 ++ zdrop (l_cur l + zlen d1) (w_buf (l_dest l))) (l_cur l + zlen d1) (w_lim (l_dest l)) (l_dest l)).
  { intros d1 H1. assert (AV : zlen d1 <= BufferedWriter.available (full l)) by (unfold BufferedWriter.available, full; ws; rewrite <- (g_lim _ _ G); lia).
    destruct (put_ok d1 delta (full l) (g_inv _ _ G) (g_dest _ _ G) (good_link _ _ G) AV) as (w1 & E1 & _ & M1). exists w1. split; [exact E1|]. split; [exact M1|].
    unfold BufferedWriter.put in E1. rewrite WriterLemmas.bind_get in E1. rewrite WriterLemmas.bind_assert in E1 by (unfold full; ws; unfold BufferedWriter.available; ws; rewrite <- (g_lim _ _ G); lia).
    cbv [BufferedWriter.modify] in E1. injection E1 as <-. reflexivity. }
  destruct (PUT d (Z.le_refl _)) as (w1 & E1 & M1 & W1).
  assert (FU : full (stored d l) = w1) by (rewrite W1; reflexivity).
  split; [|split; [|split; [rewrite FU; exact M1|exact PUT]]].
  - unfold lput. cbv [bind get modify]. unfold assert, lavailable. replace (_ && _) with true by lia. reflexivity.
  - pose proof (m_inv _ _ _ _ _ M1) as IV. constructor; try (unfold stored; lcbn; ws; first [exact (g_ok _ _ G)|exact (g_dest _ _ G)|exact (g_null _ _ G)|exact (g_start _ _ G)|exact (g_lim _ _ G)|exact (g_max _ _ G)|exact (g_max64 _ _ G)|exact (g_rand _ _ G)]).
    + rewrite FU. exact IV.
    + unfold stored. lcbn. pose proof (g_inv0 _ _ G) as I0. pose proof (i_buf _ I0) as B0. pose proof (i_cur _ I0) as C0. destruct I0. constructor; unfold used, ok in *; ws; auto.
      rewrite !zlen_app, zlen_ztake, zlen_zdrop. lia.
    + unfold stored. lcbn. apply link_buf. exact (g_link _ _ G).
Qed.
