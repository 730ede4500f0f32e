(** The invariant of the limiting reader, and its reading functions. *)
From Verif Require Import Base.Bytes Model.BufferSizer.
From Verif Require Import Model.BufferedReader Spec.BufferedReaderSpec Proof.ReaderLemmas Proof.ReaderSteps Proof.ReaderSeeks Proof.ReaderRun Proof.ReaderProof.
From Verif Require Import Model.LimitingReader Spec.LimitingReaderSpec.
Import BufferedWriter(f_pos, kMaxFdPosition).

Definition lwp {A} (m : L A) (l : limiter) (Q : A -> limiter -> Prop) : Prop := match m l with Some (a, l') => Q a l' | None => False end.
Lemma lwp_bind {A B} (m : L A) (f : A -> L B) l Q : lwp m l (fun a l' => lwp (f a) l' Q) -> lwp (bind m f) l Q.
Proof. unfold lwp, bind. destruct (m l) as [[a l']|]; exact (fun x => x). Qed.
Lemma lwp_ret {A} (a : A) l (Q : A -> limiter -> Prop) : Q a l -> lwp (ret a) l Q.
Proof. exact (fun x => x). Qed.
Lemma lwp_get l (Q : limiter -> limiter -> Prop) : Q l l -> lwp get l Q.
Proof. exact (fun x => x). Qed.
Lemma lwp_modify f l (Q : unit -> limiter -> Prop) : Q tt (f l) -> lwp (modify f) l Q.
Proof. exact (fun x => x). Qed.
Lemma lwp_assert b l (Q : unit -> limiter -> Prop) : b = true -> Q tt l -> lwp (assert b) l Q.
Proof. intros ->. exact (fun x => x). Qed.
Lemma lwp_conseq {A} (m : L A) l (P Q : A -> limiter -> Prop) : lwp m l P -> (forall a l', P a l' -> Q a l') -> lwp m l Q.
Proof. unfold lwp. destruct (m l) as [[a l']|]; [intros H1 H2; exact (H2 _ _ H1)|intros []]. Qed.
Lemma lwp_on_src {A} (m : BufferedReader.M A) l (Q : A -> limiter -> Prop) : wp m (l_src l) (fun a r => Q a (set_src r l)) -> lwp (on_src m) l Q.
Proof. unfold lwp, wp, on_src. destruct (m (l_src l)) as [[a r]|]; exact (fun x => x). Qed.
Lemma lwp_some {A} (m : L A) l Q : lwp m l Q -> exists a l', m l = Some (a, l') /\ Q a l'.
Proof. unfold lwp. destruct (m l) as [[a l']|]; [intros H; exists a, l'; split; [reflexivity|exact H]|intros []]. Qed.
Ltac lb := apply lwp_bind.
Ltac lg := apply lwp_bind; apply lwp_get.
Ltac lm := apply lwp_bind; apply lwp_modify.
Ltac la := apply lwp_bind; apply lwp_assert; [|].
Ltac lcbn := unfold lavailable; cbn [set_src set_lstate set_buffer set_max set_options l_src l_failed l_open l_limit_pos l_start l_cur l_limit l_max_pos l_exact l_fail_if_longer l_owning l_scopes lavailable fst snd].

Definition lpos (l : limiter) : Z := l_limit_pos l - lavailable l.
Definition scope_of (x : Z * bool * bool) : scope := let '(p, e, f) := x in {| s_old_max_pos := p; s_old_exact := e; s_fail_if_longer := f |}.
Definition with_pos (p : Z) (k b : bool) (s : state) : state :=
  {| a_pos := p; a_ok := k; a_limit := a_limit s; a_exact := a_exact s; a_longer := a_longer s; a_behind := b; a_scopes := a_scopes s |}.

Section S.
  Variables (content : list Z) (shift : Z) (random independent owning : bool).
  Notation inv := (inv content shift). Notation frame := (frame content shift). Notation live := (live content shift).
  Notation size := (size content shift). Notation consumes := (consumes content shift). Notation reliable := (reliable content shift).
  Notation reads := (reads content shift). Notation ending := (ending content shift). Notation enough := (enough content shift). Notation has := (has content shift).

  (** The buffer is a part of the buffer of the original reader, at the same positions *)
  Definition aligned (l : limiter) : Prop := l_limit_pos l = r_limit_pos (l_src l) - (zlen (r_buf (l_src l)) - l_limit l).
  (** The position of the original reader, once its cursor is set *)
  Definition src_pos (l : limiter) : Z := r_limit_pos (l_src l) - (zlen (r_buf (l_src l)) - l_cur l).
  Record linv (s : state) (l : limiter) : Prop := {
    v_src : inv (l_src l); v_rnd : r_random (l_src l) = random; v_indep : r_independent (l_src l) = independent; v_own : l_owning l = owning;
    v_ok : lok l = a_ok s; v_pos : lpos l = a_pos s; v_limit : l_max_pos l = a_limit s; v_ex : l_exact l = a_exact s; v_longer : l_fail_if_longer l = a_longer s;
    v_scopes : l_scopes l = map scope_of (a_scopes s);
    v_ptr : 0 <= l_start l <= l_cur l /\ l_cur l <= l_limit l <= zlen (r_buf (l_src l)); v_lp : l_limit l - l_start l <= l_limit_pos l <= a_limit s;
    v_max : a_limit s <= kMaxPosition; v_srcok : lok l = true -> ok (l_src l) = true;
    v_al : aligned l \/ (l_start l = l_cur l /\ l_cur l = l_limit l /\ (lok l = true -> a_behind s = true /\ l_limit_pos l = a_limit s /\ a_limit s < src_pos l));
    v_file : l_limit_pos l <= size /\ l_limit_pos l <= kMaxFdPosition /\ (a_behind s = false -> 0 <= a_pos s + shift) }.

  Lemma linv_bounds s l : linv s l -> 0 <= a_pos s /\ a_pos s <= a_limit s /\ a_pos s <= size /\ a_pos s + lavailable l = l_limit_pos l /\ 0 <= lavailable l /\ l_limit_pos l <= ending s /\ a_pos s <= kMaxFdPosition.
  Proof. intros V. pose proof (v_pos _ _ V) as A6. pose proof (v_ptr _ _ V) as B2. pose proof (v_lp _ _ V) as B3. destruct (v_file _ _ V) as (B7 & B8 & _). clear V. unfold lpos, lavailable, LimitingReaderSpec.ending in *. lia. Qed.
  Lemma get_lpos_ok s l (Q : Z -> limiter -> Prop) : linv s l -> Q (a_pos s) l -> lwp get_lpos l Q.
  Proof. intros V H. unfold get_lpos. lg. la; [pose proof (v_lp _ _ V); lia|]. apply lwp_ret. change (l_limit_pos l - lavailable l) with (lpos l). rewrite (v_pos _ _ V). exact H. Qed.
  Lemma get_start_lpos_ok s l (Q : Z -> limiter -> Prop) : linv s l -> Q (l_limit_pos l - (l_limit l - l_start l)) l -> lwp get_start_lpos l Q.
  Proof. intros V H. unfold get_start_lpos. lg. la; [pose proof (v_lp _ _ V); lia|]. apply lwp_ret. exact H. Qed.

  (** What MakeBuffer() does *)
  Record made (r : reader) (l l' : limiter) : Prop := {
    m_src : l_src l' = r; m_open : l_open l' = l_open l; m_failed : l_failed l' = l_failed l || negb (ok r); m_max : l_max_pos l' = l_max_pos l; m_ex : l_exact l' = l_exact l;
    m_longer : l_fail_if_longer l' = l_fail_if_longer l; m_own : l_owning l' = l_owning l; m_scopes : l_scopes l' = l_scopes l;
    m_ptr : 0 <= l_start l' <= l_cur l' /\ l_cur l' <= l_limit l' <= zlen (r_buf r); m_lp : l_limit l' - l_start l' <= l_limit_pos l' <= l_max_pos l;
    m_pos : lpos l' = Z.min (pos r) (l_max_pos l); m_cur : l_cur l' = r_cur r;
    m_limit_pos : pos r <= l_max_pos l -> l_limit_pos l' = Z.min (r_limit_pos r) (l_max_pos l);
    m_al : if pos r <=? l_max_pos l then aligned l' else l_start l' = l_cur l' /\ l_cur l' = l_limit l' /\ l_limit_pos l' = l_max_pos l }.
  Lemma MakeBuffer_ok l (Q : unit -> limiter -> Prop) : inv (l_src l) -> 0 <= l_max_pos l -> (forall l', made (l_src l) l l' -> Q tt l') -> lwp MakeBuffer l Q.
  Proof.
    intros I1 MX H. destruct (pos_bounds _ _ _ I1) as (PB1 & PB2 & PB3 & PB4 & PB5 & PB6). pose proof (i_cur _ _ _ I1) as CU. pose proof (v_lim _ _ _ (i_raw _ _ _ I1)) as VL.
    unfold MakeBuffer. lg. lm. lg. lcbn. unfold pos, available in *. lb.
    set (l1 := set_buffer 0 (r_cur (l_src l)) (zlen (r_buf (l_src l))) (r_limit_pos (l_src l)) l).
    assert (FIN : forall st c lim lp, let l2 := set_buffer st c lim lp l in
      0 <= st <= c /\ c <= lim <= zlen (r_buf (l_src l)) -> lim - st <= lp <= l_max_pos l -> lp - (lim - c) = Z.min (pos (l_src l)) (l_max_pos l) -> c = r_cur (l_src l) ->
      (pos (l_src l) <= l_max_pos l -> lp = Z.min (r_limit_pos (l_src l)) (l_max_pos l)) ->
      (if pos (l_src l) <=? l_max_pos l then aligned l2 else st = c /\ c = lim /\ lp = l_max_pos l) ->
      lwp (l <- get; if ok (l_src l) then ret tt else modify (set_lstate true (l_open l))) l2 Q).
    { intros st c lim lp l2 A1 A2 A3 A4 A5 A6. lg. unfold l2 in *. lcbn. destruct (ok (l_src l)) eqn:OK.
      - apply lwp_ret. apply H. constructor; auto. lcbn. rewrite OK. destruct (l_failed l); reflexivity.
      - apply lwp_modify. apply H. constructor; auto. lcbn. rewrite OK. destruct (l_failed l); reflexivity. }
    destruct (l_max_pos l <? r_limit_pos (l_src l)) eqn:E.
    - unfold MakeBufferSlow. lb. unfold get_lpos. lg. la; [unfold l1; lcbn; lia|]. apply lwp_ret. lg. unfold l1. lcbn.
      destruct (l_max_pos l <? r_limit_pos (l_src l) - (zlen (r_buf (l_src l)) - r_cur (l_src l))) eqn:E2.
      + apply lwp_modify. apply (FIN (r_cur (l_src l)) (r_cur (l_src l)) (r_cur (l_src l)) (l_max_pos l)); unfold pos, available; try lia.
        destruct (r_limit_pos (l_src l) - (zlen (r_buf (l_src l)) - r_cur (l_src l)) <=? l_max_pos l) eqn:E3; lia.
      + la; [lia|]. apply lwp_modify. apply (FIN 0 (r_cur (l_src l)) (zlen (r_buf (l_src l)) - (r_limit_pos (l_src l) - l_max_pos l)) (l_max_pos l)); unfold pos, available; try lia.
        destruct (r_limit_pos (l_src l) - (zlen (r_buf (l_src l)) - r_cur (l_src l)) <=? l_max_pos l) eqn:E3; [|lia]. unfold aligned. lcbn. lia.
    - apply lwp_ret. apply (FIN 0 (r_cur (l_src l)) (zlen (r_buf (l_src l))) (r_limit_pos (l_src l))); unfold pos, available; try lia.
      destruct (r_limit_pos (l_src l) - (zlen (r_buf (l_src l)) - r_cur (l_src l)) <=? l_max_pos l) eqn:E3; [|lia]. unfold aligned. lcbn. lia.
  Qed.
  (** The invariant after MakeBuffer() *)
  Lemma made_linv s l r l' b : linv s l -> inv r -> r_random r = random -> r_independent r = independent -> made r l l' ->
    (lok l' = true -> b = true \/ pos r <= a_limit s) -> (b = false -> a_behind s = false \/ pos r <= a_limit s) ->
    linv (with_pos (Z.min (pos r) (a_limit s)) (lok l') b s) l'.
  Proof.
    intros V I1 R1 R2 MD H1 H2. destruct (linv_bounds _ _ V) as (LB1 & LB2 & _).
    destruct (pos_bounds _ _ _ I1) as (PB1 & PB2 & PB3 & PB4 & PB5 & PB6). pose proof (v_limit _ _ V) as A7.
    pose proof (m_limit_pos _ _ _ MD) as N5. pose proof (m_al _ _ _ MD) as N6. pose proof (m_pos _ _ _ MD) as N3. pose proof (m_lp _ _ _ MD) as N2. rewrite A7 in N5, N6, N3, N2.
    assert (PL : l_limit_pos l' <= r_limit_pos r \/ (a_limit s < pos r /\ l_limit_pos l' = a_limit s)).
    { clear - N5 N6. destruct (pos r <=? a_limit s) eqn:E; [left; rewrite N5 by lia; lia|right; lia]. }
    constructor; cbn [with_pos a_pos a_ok a_limit a_exact a_longer a_behind a_scopes]; rewrite ?(m_src _ _ _ MD).
    - exact I1.
    - exact R1.
    - exact R2.
    - rewrite (m_own _ _ _ MD). apply V.
    - reflexivity.
    - exact N3.
    - rewrite (m_max _ _ _ MD). exact A7.
    - rewrite (m_ex _ _ _ MD). apply V.
    - rewrite (m_longer _ _ _ MD). apply V.
    - rewrite (m_scopes _ _ _ MD). apply V.
    - exact (m_ptr _ _ _ MD).
    - exact N2.
    - exact (v_max _ _ V).
    - intros OK. unfold lok in OK. rewrite (m_failed _ _ _ MD) in OK. destruct (ok r); [reflexivity|]. destruct (l_open l'), (l_failed l); discriminate OK.
    - destruct (pos r <=? a_limit s) eqn:E; [left; exact N6|right]. destruct N6 as (N6 & N7 & N8). split; [exact N6|]. split; [exact N7|]. intros OK. destruct (H1 OK) as [->|X]; [|lia].
      split; [reflexivity|]. split; [exact N8|]. unfold src_pos. rewrite (m_src _ _ _ MD), (m_cur _ _ _ MD). clear - E. unfold pos, available in *. lia.
    - split; [clear - PL PB4 PB5 PB1 LB2; lia|]. split; [clear - PL PB4 PB1 PB6; lia|]. intros BB. destruct (H2 BB) as [X|X]; [|clear - X PB3; lia]. pose proof (proj2 (proj2 (v_file _ _ V)) X) as Y. clear - Y PB3 LB2. lia.
  Qed.
  Lemma with_pos_same s : with_pos (a_pos s) (a_ok s) (a_behind s) s = s.
  Proof. destruct s; reflexivity. Qed.
  Lemma linv_behind p k s l : linv (with_pos p k false s) l -> forall b, linv (with_pos p k b s) l.
  Proof.
    intros V b. constructor; cbn [with_pos a_pos a_ok a_limit a_exact a_longer a_behind a_scopes]; try apply V.
    - destruct (v_al _ _ V) as [X|(X & Y & Z1)]; [left; exact X|right]. split; [exact X|]. split; [exact Y|]. intros O. destruct (Z1 O) as [U _]. discriminate U.
    - destruct (v_file _ _ V) as (X & Y & Z1). split; [exact X|]. split; [exact Y|]. intros _. exact (Z1 eq_refl).
  Qed.

  (** What a function leaves true of the state, except for the position and for being behind the limit *)
  Record moves (s : state) (l : limiter) (p : Z) (k : bool) (l' : limiter) : Prop := {
    d_inv : linv (with_pos p (lok l') k s) l'; d_ok : lok l' = true -> lok l = true; d_rel : reliable (l_src l) -> reliable (l_src l');
    d_open : l_open l' = l_open l }.
  Definition moved (s : state) (l : limiter) (p : Z) (l' : limiter) : Prop := moves s l p (a_behind s) l'.
  Lemma moved_refl s l : linv s l -> moved s l (a_pos s) l.
  Proof. intros V. constructor; auto. rewrite (v_ok _ _ V), with_pos_same. exact V. Qed.
  Lemma moves_trans s l p1 k1 l1 p2 k2 l2 : moves s l p1 k1 l1 -> moves (with_pos p1 (lok l1) k1 s) l1 p2 k2 l2 -> moves s l p2 k2 l2.
  Proof.
    intros A B. constructor; [exact (d_inv _ _ _ _ _ B)|intros O; exact (d_ok _ _ _ _ _ A (d_ok _ _ _ _ _ B O))|intros R; exact (d_rel _ _ _ _ _ B (d_rel _ _ _ _ _ A R))|].
    rewrite (d_open _ _ _ _ _ B). exact (d_open _ _ _ _ _ A).
  Qed.
  (** Where the original reader is: at the position, or behind the limit *)
  Definition at_src (s : state) (q : Z) : Prop := q = a_pos s \/ (a_behind s = true /\ a_pos s = a_limit s /\ a_limit s < q).
  Lemma at_src_min s q : at_src s q -> a_pos s <= a_limit s -> Z.min q (a_limit s) = a_pos s.
  Proof. unfold at_src. lia. Qed.
  (** The state of the original reader once its buffer is synchronized *)
  Definition synced (l : limiter) : reader := set_buf (r_buf (l_src l)) (l_cur l) (l_src l).
  Record synced_facts (s : state) (l : limiter) : Prop := {
    y_inv : inv (synced l); y_frame : frame (l_src l) (synced l); y_ok : ok (synced l) = ok (l_src l); y_rnd : r_random (synced l) = random; y_ind : r_independent (synced l) = independent;
    y_pos : pos (synced l) = src_pos l; y_lp : r_limit_pos (synced l) = r_limit_pos (l_src l); y_at : lok l = true -> at_src s (pos (synced l)) }.
  Lemma synced_ok s l : linv s l -> synced_facts s l.
  Proof.
    intros V. constructor; try reflexivity.
    - apply inv_set_cur; [exact (v_src _ _ V)|pose proof (v_ptr _ _ V) as X; clear - X; lia].
    - apply frame_set_buf.
    - exact (v_rnd _ _ V).
    - exact (v_indep _ _ V).
    - intros OK. change (pos (synced l)) with (src_pos l). pose proof (v_pos _ _ V) as VP. unfold lpos, lavailable in VP.
      destruct (v_al _ _ V) as [X|(X & Y & Z1)]; [left|right].
      + clear - X VP. unfold src_pos, aligned in *. lia.
      + destruct (Z1 OK) as (U1 & U2 & U3). clear - U1 U2 U3 X Y VP. split; [exact U1|]. lia.
  Qed.
  Lemma SyncBuffer_ok s l (Q : unit -> limiter -> Prop) : linv s l -> Q tt (set_src (synced l) l) -> lwp SyncBuffer l Q.
  Proof. intros V H. unfold SyncBuffer. lg. la; [pose proof (v_ptr _ _ V) as X; clear - X; lia|]. apply lwp_modify. exact H. Qed.
  Lemma linv_synced s l : linv s l -> linv s (set_src (synced l) l).
  Proof. intros V. pose proof (synced_ok s l V) as Y. constructor; try apply V; apply Y. Qed.
  Lemma made_src r r' l l' : made r (set_src r' l) l' -> made r l l'.
  Proof. intros M. constructor; apply M. Qed.
  Lemma made_lok r l l' : made r l l' -> lok l = true -> lok l' = ok r.
  Proof. intros M O. unfold lok in *. rewrite (m_failed _ _ _ M), (m_open _ _ _ M). destruct (l_open l), (l_failed l), (ok r); cbn in *; congruence. Qed.
  (** SyncBuffer(), a call of the original reader, MakeBuffer() *)
  Lemma slow_ok {A B} (m : BufferedReader.M A) (k : A -> L B) s l (P : A -> reader -> Prop) (Q : B -> limiter -> Prop) : linv s l -> wp m (synced l) P ->
    (forall a r, P a r -> inv r) -> (forall a r l', P a r -> inv r -> made r l l' -> lwp (k a) l' Q) ->
    lwp (SyncBuffer;; x <- on_src m; MakeBuffer;; k x) l Q.
  Proof.
    intros V W F H. destruct (linv_bounds _ _ V) as (LB1 & LB2 & _). lb. apply SyncBuffer_ok with s; [exact V|]. lb. apply lwp_on_src. lcbn. apply (wp_conseq _ _ _ _ W). intros a r PA.
    lb. apply MakeBuffer_ok; [exact (F a r PA)|cbn [set_src l_max_pos]; rewrite (v_limit _ _ V); clear - LB1 LB2; lia|]. intros l' MD. apply (H a r l' PA (F a r PA)). apply made_src with (synced l). apply made_src with r. exact MD.
  Qed.
  Lemma linv_failed s l : linv s l -> linv (with_pos (a_pos s) false (a_behind s) s) (set_lstate true (l_open l) l).
  Proof.
    intros V. assert (O : lok (set_lstate true (l_open l) l) = false) by (unfold lok; cbn; destruct (l_open l); reflexivity).
    constructor; try apply V; try (rewrite O; discriminate); try exact O.
    destruct (v_al _ _ V) as [X|(X & Y & _)]; [left; exact X|right]. split; [exact X|]. split; [exact Y|]. rewrite O. discriminate.
  Qed.
  Lemma Fail_ok s l : linv s l -> lwp Fail l (fun b l' => b = false /\ lok l' = false /\ moved s l (a_pos s) l' /\ l_limit_pos l' <= Z.max (l_limit_pos l) (Z.min (r_limit_pos (l_src l)) (a_limit s)) /\
    (lok l = true -> at_src s (pos (l_src l')))).
  Proof.
    intros V. destruct (linv_bounds _ _ V) as (LB1 & LB2 & _). unfold Fail. lg. destruct (l_failed l) eqn:F.
    - assert (O : lok l = false) by (unfold lok; rewrite F; destruct (l_open l); reflexivity). apply lwp_ret. rewrite O. split; [reflexivity|]. split; [reflexivity|]. split; [exact (moved_refl _ _ V)|]. split; [clear; lia|discriminate].
    - lm. lb. pose proof (linv_failed s l V) as V1. set (l1 := set_lstate true (l_open l) l) in *.
      assert (O1 : lok l1 = false) by (unfold l1, lok; cbn; destruct (l_open l); reflexivity).
      destruct (l_open l) eqn:OP.
      + assert (O : lok l = true) by (unfold lok; rewrite OP, F; reflexivity). pose proof (synced_ok s l V) as Y. pose proof (y_at _ _ Y O) as AT. pose proof (at_src_min _ _ AT LB2) as PE.
        lb. apply SyncBuffer_ok with (with_pos (a_pos s) false (a_behind s) s); [exact V1|]. apply MakeBuffer_ok; [exact (y_inv _ _ Y)|unfold l1; lcbn; rewrite (v_limit _ _ V); clear - LB1 LB2; lia|].
        intros l' MD. apply lwp_ret. apply made_src in MD. change (synced l1) with (synced l) in *. cbn [set_src l_src] in MD.
        assert (O' : lok l' = false) by (unfold lok; rewrite (m_failed _ _ _ MD); cbn; destruct (l_open l'); reflexivity).
        split; [reflexivity|]. split; [exact O'|]. split; [|split; [|intros _; rewrite (m_src _ _ _ MD); exact AT]].
        * constructor; [|congruence|rewrite (m_src _ _ _ MD); exact (fr_rel _ _ _ _ (y_frame _ _ Y))|rewrite (m_open _ _ _ MD); symmetry; exact OP]. rewrite <- PE.
          refine (made_linv _ l1 (synced l) l' (a_behind s) V1 (y_inv _ _ Y) (y_rnd _ _ Y) (y_ind _ _ Y) MD _ _); [congruence|]. cbn [with_pos a_behind]. auto.
        * pose proof (m_limit_pos _ _ _ MD) as ML. pose proof (m_lp _ _ _ MD) as MLP. change (l_max_pos l1) with (l_max_pos l) in *. rewrite (v_limit _ _ V) in *. rewrite (y_lp _ _ Y) in ML.
          destruct (v_al _ _ V) as [X|(X & X2 & X3)].
          -- assert (pos (synced l) <= a_limit s). { pose proof (v_lp _ _ V) as B1. pose proof (v_ptr _ _ V) as B2. clear - X B1 B2 Y. rewrite (y_pos _ _ Y). unfold src_pos, aligned in *. lia. }
             rewrite ML by assumption. clear. lia.
          -- destruct (X3 O) as (_ & X4 & _). clear - X4 MLP. lia.
      + apply lwp_ret. apply lwp_ret. assert (O : lok l = false) by (unfold lok; rewrite OP; reflexivity). rewrite O. split; [reflexivity|]. split; [exact O1|]. split; [|split; [unfold l1; lcbn; clear; lia|discriminate]].
        constructor; auto. congruence.
  Qed.
  Lemma CheckEnough_ok s l : linv s l -> lwp CheckEnough l (fun b l' => b = false /\ moved s l (a_pos s) l' /\ (lok l' = true -> a_exact s = false) /\ (a_exact s = false -> l' = l) /\
    l_limit_pos l' <= Z.max (l_limit_pos l) (Z.min (r_limit_pos (l_src l)) (a_limit s))).
  Proof.
    intros V. unfold CheckEnough. lg. rewrite (v_ex _ _ V). destruct (a_exact s) eqn:E.
    - eapply lwp_conseq; [exact (Fail_ok s l V)|]. cbn beta. intros b l' (A1 & A2 & A3 & A4 & A5). split; [exact A1|]. split; [exact A3|]. split; [congruence|]. split; [discriminate|exact A4].
    - apply lwp_ret. split; [reflexivity|]. split; [exact (moved_refl _ _ V)|]. split; [reflexivity|]. split; [reflexivity|clear; lia].
  Qed.
  (** Reading from the original reader, not beyond the limit *)
  Lemma consumed_ok s l d r l' : linv s l -> lok l = true -> consumes d (synced l) r -> zlen d <= a_limit s - a_pos s -> made r l l' ->
    moved s l (a_pos s + zlen d) l' /\ reads d (a_pos s) (a_pos s + zlen d) /\ lok l' = ok r /\ (reliable (l_src l) -> ok r = true) /\
    at_src (with_pos (a_pos s + zlen d) (lok l') (a_behind s) s) (pos r) /\ (pos r <= a_limit s -> l_limit_pos l' = Z.min (r_limit_pos r) (a_limit s)).
  Proof.
    intros V O C D MD. destruct (linv_bounds _ _ V) as (LB1 & LB2 & _). pose proof (synced_ok s l V) as Y. pose proof (y_at _ _ Y O) as AT. pose proof (zlen_nonneg d) as ZD.
    destruct C as [C1 C2 C3 [C4 C5]]. pose proof (made_lok _ _ _ MD O) as LO.
    assert (AT' : at_src (with_pos (a_pos s + zlen d) (lok l') (a_behind s) s) (pos r)).
    { clear - AT C5 D ZD. destruct AT as [X|(X1 & X2 & X3)]; [left|right]; cbn [with_pos a_pos a_behind a_limit]; [lia|]. split; [exact X1|lia]. }
    assert (PE : Z.min (pos r) (a_limit s) = a_pos s + zlen d) by (clear - AT' D; apply (at_src_min _ _ AT'); cbn [with_pos a_pos a_limit]; lia).
    split.
    { constructor.
      - rewrite <- PE. refine (made_linv _ l r l' (a_behind s) V C1 _ _ MD _ _).
        + rewrite (fr_rand _ _ _ _ C2). exact (y_rnd _ _ Y).
        + rewrite (fr_ind _ _ _ _ C2). exact (y_ind _ _ Y).
        + intros _. clear - AT' D. destruct AT' as [X|(X1 & _)]; [right; cbn [with_pos a_pos] in X; lia|left; exact X1].
        + auto.
      - auto.
      - rewrite (m_src _ _ _ MD). intros R. exact (fr_rel _ _ _ _ C2 (fr_rel _ _ _ _ (y_frame _ _ Y) R)).
      - exact (m_open _ _ _ MD). }
    split.
    { split; [|reflexivity]. destruct AT as [X|(X1 & X2 & X3)]; [rewrite <- X; exact C4|]. assert (zlen d = 0) as -> by (clear - D ZD X2; lia). rewrite (zlen_0_nil d) by (clear - D ZD X2; lia). reflexivity. }
    split; [exact LO|]. split; [intros R; apply C3; [exact (fr_rel _ _ _ _ (y_frame _ _ Y) R)|rewrite (y_ok _ _ Y); exact (v_srcok _ _ V O)]|]. split; [exact AT'|].
    rewrite <- (v_limit _ _ V). exact (m_limit_pos _ _ _ MD).
  Qed.
  Definition llive (good : Prop) (l l' : limiter) : Prop := reliable (l_src l) -> lok l = true -> good -> lok l' = true.
  Lemma PullSlow_ok s l n rec : linv s l -> lavailable l < n <= 2 ^ 63 -> 0 <= rec ->
    lwp (PullSlow n rec) l (fun b l' => moved s l (a_pos s) l' /\ llive (has s (a_pos s + n)) l l' /\
      if b then n <= lavailable l' else lavailable l' < n /\ (lok l' = true -> a_pos s + lavailable l' = ending s /\ enough s)).
  Proof.
    intros V N RC. destruct (linv_bounds _ _ V) as (LB1 & LB2 & LB3 & LB4 & LB5 & LB6 & LB7). unfold PullSlow. lb. apply get_lpos_ok with s; [exact V|]. lg. rewrite (v_limit _ _ V). la; [clear - N LB2; lia|].
    destruct (lok l) eqn:O; cbn [negb].
    2:{ apply lwp_ret. split; [exact (moved_refl _ _ V)|]. split; [intros _ X; congruence|]. split; [clear - N; lia|]. intros X. congruence. }
    set (n' := Z.min n (a_limit s - a_pos s)). assert (N' : 0 <= n' <= n /\ n' <= a_limit s - a_pos s /\ (n' = n \/ n' = a_limit s - a_pos s)) by (unfold n'; clear - N LB2 LB5; lia). clearbody n'.
    pose proof (synced_ok s l V) as Y.
    eapply slow_ok; [exact V|apply Pull_ok; [exact (y_inv _ _ Y)|clear - N N'; lia|exact RC]|cbn beta; intros b r (A & _); exact (c_inv _ _ _ _ _ A)|]. cbn beta. intros b r l' (A1 & A2 & A3) I1 MD.
    destruct (consumed_ok s l [] r l' V O A1 ltac:(change (zlen (@nil Z)) with 0; clear - LB2; lia) MD) as (C1 & _ & C3 & C4 & C5 & C6). change (zlen (@nil Z)) with 0 in *. rewrite Z.add_0_r in *.
    pose proof (d_inv _ _ _ _ _ C1) as V1. destruct (linv_bounds _ _ V1) as (LC1 & LC2 & LC3 & LC4 & LC5 & LC6 & LC7). cbn [with_pos a_pos a_limit] in *.
    destruct (pos_bounds _ _ _ I1) as (PB1 & PB2 & PB3 & PB4 & PB5 & PB6). destruct b; cbn [negb].
    - apply lwp_ret. split; [exact C1|]. split; [intros R _ _; rewrite C3; exact (C4 R)|].
      assert (AV : n' <= lavailable l'). { clear - C5 C6 A2 N' PB4 LC4 LC5. destruct C5 as [X|(X1 & X2 & X3)]; cbn [with_pos a_pos a_limit] in *; [|lia]. rewrite C6 in LC4 by lia. lia. }
      destruct (n' =? n) eqn:E; [clear - AV E; lia|]. clear - AV E N' LC4 LC3 LC6. unfold LimitingReaderSpec.ending, LimitingReaderSpec.enough in *. cbn [with_pos a_pos a_limit a_exact] in *.
      split; [lia|]. intros _. split; [lia|]. intros _. lia.
    - assert (AVL : available r < n') by (clear - A2; lia). specialize (A3 eq_refl).
      assert (PE : pos r = a_pos s). { clear - C5 AVL PB1 N'. destruct C5 as [X|(X1 & X2 & X3)]; cbn [with_pos a_pos a_limit] in *; [exact X|lia]. }
      specialize (C6 ltac:(clear - PE LB2; lia)).
      eapply lwp_conseq; [exact (CheckEnough_ok _ _ V1)|]. cbn beta. intros b l2 (B1 & B2 & B3 & B4 & B5). cbn [with_pos a_pos a_limit a_exact] in *. pose proof (d_inv _ _ _ _ _ B2) as V2.
      destruct (linv_bounds _ _ V2) as (LD1 & LD2 & LD3 & LD4 & LD5 & LD6 & LD7). cbn [with_pos a_pos a_limit a_exact] in *. rewrite B1. rewrite (m_src _ _ _ MD) in B5.
      split; [exact (moves_trans _ _ _ _ _ _ _ _ C1 B2)|]. split.
      { intros R _ H. pose proof (C4 R) as OK. rewrite B4; [rewrite C3; exact OK|]. specialize (A3 OK). destruct (a_exact s) eqn:EX; [|reflexivity]. specialize (H EX). clear - H A3 AVL PE PB4 N'. exfalso. lia. }
      split; [clear - AVL PE PB4 C6 B5 LD4 N'; lia|]. intros OK. pose proof (d_ok _ _ _ _ _ B2 OK) as O1. rewrite C3 in O1. specialize (A3 O1). specialize (B3 OK).
      rewrite (B4 B3) in *. unfold LimitingReaderSpec.ending, LimitingReaderSpec.enough. rewrite B3. split; [|discriminate]. clear - LC4 C6 A3. lia.
  Qed.
  Lemma Pull_ok s l n rec : linv s l -> 0 <= n <= 2 ^ 63 -> 0 <= rec ->
    lwp (Pull n rec) l (fun b l' => moved s l (a_pos s) l' /\ llive (has s (a_pos s + n)) l l' /\
      if b then n <= lavailable l' else lavailable l' < n /\ (lok l' = true -> a_pos s + lavailable l' = ending s /\ enough s)).
  Proof.
    intros V N RC. unfold Pull. lg. destruct (n <=? lavailable l) eqn:E.
    - apply lwp_ret. split; [exact (moved_refl _ _ V)|]. split; [intros _ X _; exact X|clear - E; lia].
    - lb. eapply lwp_conseq; [apply PullSlow_ok; [exact V|clear - N E; lia|exact RC]|]. cbn beta. intros b l' (A1 & A2 & A3). lg. destruct b; cbn [negb].
      + la; [clear - A3; lia|]. apply lwp_ret. auto.
      + apply lwp_ret. auto.
  Qed.
  (** The result of reading [n] bytes *)
  Definition lread (s : state) (l : limiter) (n : Z) (x : bool * list Z) (l' : limiter) : Prop :=
    moved s l (a_pos s + zlen (snd x)) l' /\ reads (snd x) (a_pos s) (a_pos s + zlen (snd x)) /\ llive (has s (a_pos s + n)) l l' /\
    if fst x then zlen (snd x) = n else zlen (snd x) < n /\ (lok l' = true -> a_pos s + zlen (snd x) = ending s /\ enough s).
  Lemma take_ok s l n (Q : list Z -> limiter -> Prop) : linv s l -> 0 <= n <= lavailable l ->
    (forall d l', zlen d = n -> moved s l (a_pos s + n) l' -> reads d (a_pos s) (a_pos s + n) -> lok l' = lok l -> Q d l') -> lwp (take n) l Q.
  Proof.
    intros V N H. unfold take. lg. la; [clear - N; lia|]. lm. apply lwp_ret. pose proof (v_ptr _ _ V) as PT. pose proof (linv_bounds _ _ V) as LB.
    assert (ZL : zlen (zslice (l_cur l) n (r_buf (l_src l))) = n) by (apply zlen_zslice; clear - PT N; unfold lavailable in N; lia).
    apply H; [exact ZL| | |reflexivity].
    - constructor; auto. constructor; try apply V; try reflexivity.
      + cbn [with_pos a_pos]. pose proof (v_pos _ _ V) as X. clear - X. unfold lpos in *. revert X. lcbn. lia.
      + lcbn. clear - PT N. unfold lavailable in N. lia.
      + destruct (v_al _ _ V) as [X|(X & Y & Z1)]; [left; exact X|]. assert (n = 0) by (clear - N Y; unfold lavailable in N; lia). subst n.
        right. lcbn. split; [clear - X; lia|]. split; [clear - Y; lia|]. intros OK. destruct (Z1 OK) as (U1 & U2 & U3). split; [exact U1|]. split; [exact U2|]. clear - U3. unfold src_pos in *. lcbn. cbn [with_pos a_limit]. lia.
      + destruct (v_file _ _ V) as (X & Y & Z1). split; [exact X|]. split; [exact Y|]. cbn [with_pos a_behind a_pos]. intros B. specialize (Z1 B). clear - Z1 N. lia.
    - split; [|rewrite ZL; reflexivity]. rewrite ZL. destruct (v_al _ _ V) as [X|(X & Y & Z1)].
      + pose proof (i_off _ _ _ (v_src _ _ V)) as OF. rewrite (i_buf _ _ _ (v_src _ _ V)). rewrite zslice_zslice by (clear - PT N OF; unfold lavailable in N; lia). unfold piece. f_equal. pose proof (v_pos _ _ V) as VP. clear - X VP. unfold lpos, aligned, lavailable in *. lia.
      + assert (n = 0) by (clear - N Y; unfold lavailable in N; lia). subst n. reflexivity.
  Qed.
  Lemma ReadSlow_full s l chain n : linv s l -> (if chain : bool then Z.min (lavailable l) kMaxBytesToCopy < n else lavailable l < n) -> lwp (ReadSlow chain n) l (fun x l' => lread s l n x l' /\ (n <= lavailable l -> fst x = true \/ snd x = [])).
  Proof.
    intros V N. destruct (linv_bounds _ _ V) as (LB1 & LB2 & LB3 & LB4 & LB5 & LB6 & LB7). unfold ReadSlow. lb. apply get_lpos_ok with s; [exact V|]. lg. rewrite (v_limit _ _ V).
    assert (NP : 0 < n) by (clear - N LB5; unfold kMaxBytesToCopy in N; destruct chain; lia).
    la; [clear - N; destruct chain; lia|]. la; [clear - LB2; lia|].
    destruct (lok l) eqn:O; cbn [negb].
    2:{ apply lwp_ret. split; [|intros _; right; reflexivity]. unfold lread. cbn [fst snd]. change (zlen (@nil Z)) with 0. rewrite Z.add_0_r. split; [exact (moved_refl _ _ V)|]. split; [split; [reflexivity|change (zlen (@nil Z)) with 0; clear; lia]|].
        split; [intros _ X; congruence|]. split; [exact NP|]. intros X. congruence. }
    set (n' := Z.min n (a_limit s - a_pos s)). assert (N' : 0 <= n' <= n /\ n' <= a_limit s - a_pos s /\ (n' = n \/ n' = a_limit s - a_pos s)) by (unfold n'; clear - NP LB2 LB5; lia). clearbody n'.
    pose proof (synced_ok s l V) as Y. pose proof (y_inv _ _ Y) as I0.
    assert (W : wp (if chain then BufferedReader.ReadChain n' else BufferedReader.Read n') (synced l) (fun x r => read_post content shift n' (synced l) x r /\ (n <= lavailable l -> fst x = true))).
    { destruct (n <=? lavailable l) eqn:E.
      - destruct chain; [|clear - E N; lia]. eapply wp_conseq; [apply ReadChain_enough; [exact I0|]|].
        + pose proof (v_ptr _ _ V) as PT. clear - E N' PT. unfold available, synced, lavailable in *. rcbn. lia.
        + cbn beta. intros x r [X1 X2]. split; [exact X2|intros _; exact X1].
      - eapply wp_conseq with (P := read_post content shift n' (synced l)); [destruct chain; [apply ReadChain_ok|apply Read_ok]; auto; clear - N'; lia|]. intros x r X. split; [exact X|clear - E; lia]. }
    eapply slow_ok; [exact V|exact W|cbn beta; intros b r ((A & _) & _); exact (c_inv _ _ _ _ _ A)|]. cbn beta. clear W. intros [b d] r l' ((A1 & A2) & A4) I1 MD. cbn [fst snd] in *.
    destruct (consumed_ok s l d r l' V O A1 ltac:(clear - A2 N'; destruct b; lia) MD) as (C1 & C2 & C3 & C4 & C5 & C6).
    pose proof (d_inv _ _ _ _ _ C1) as V1. destruct (linv_bounds _ _ V1) as (LC1 & LC2 & LC3 & LC4 & LC5 & LC6 & LC7). cbn [with_pos a_pos a_limit] in *.
    unfold lread. destruct b; cbn [negb].
    - apply lwp_ret. cbn [fst snd]. split; [|intros X; left; clear - X N' LB4 LB6; unfold LimitingReaderSpec.ending in *; lia]. split; [exact C1|]. split; [exact C2|]. split; [intros R _ _; rewrite C3; exact (C4 R)|].
      destruct (n' =? n) eqn:E; [clear - A2 E; lia|]. clear - A2 E N' LC3. unfold LimitingReaderSpec.ending, LimitingReaderSpec.enough in *.
      split; [lia|]. intros _. split; [lia|]. intros _. lia.
    - destruct A2 as [A2 A3]. lb.
      assert (PE : pos r = a_pos s + zlen d). { clear - C5 A2 N'. pose proof (zlen_nonneg d). destruct C5 as [X|(X1 & X2 & X3)]; cbn [with_pos a_pos a_limit] in *; [exact X|lia]. }
      eapply lwp_conseq; [exact (CheckEnough_ok _ _ V1)|]. cbn beta. intros b l2 (B1 & B2 & B3 & B4 & B5). cbn [with_pos a_pos a_limit a_exact] in *. rewrite B1. apply lwp_ret. cbn [fst snd]. split; [|intros X; specialize (A4 X); discriminate].
      split; [exact (moves_trans _ _ _ _ _ _ _ _ C1 B2)|]. split; [exact C2|]. split.
      { intros R _ H. pose proof (C4 R) as OK. rewrite B4; [rewrite C3; exact OK|]. specialize (A3 OK). destruct (a_exact s) eqn:EX; [|reflexivity]. specialize (H EX). clear - H A3 A2 PE N'. exfalso. lia. }
      split; [clear - A2 N'; lia|]. intros OK. pose proof (d_ok _ _ _ _ _ B2 OK) as O1. rewrite C3 in O1. specialize (A3 O1). specialize (B3 OK).
      unfold LimitingReaderSpec.ending, LimitingReaderSpec.enough. rewrite B3. split; [|discriminate]. clear - LC2 PE A3. lia.
  Qed.
  Lemma ReadSlow_ok s l chain n : linv s l -> (if chain : bool then Z.min (lavailable l) kMaxBytesToCopy < n else lavailable l < n) -> lwp (ReadSlow chain n) l (lread s l n).
  Proof. intros V N. eapply lwp_conseq; [exact (ReadSlow_full s l chain n V N)|]. cbn beta. intros x l' [H _]. exact H. Qed.
  Lemma check_read_full s l n m (F : bool * list Z -> Prop) : linv s l -> lwp m l (fun x l' => lread s l n x l' /\ F x) -> lwp (check_read n m) l (fun x l' => lread s l n x l' /\ F x).
  Proof.
    intros V W. unfold check_read. lb. apply get_lpos_ok with s; [exact V|]. lb. apply (lwp_conseq _ _ _ _ W). intros [b d] l' ((A1 & A2 & A3 & A4) & A5). cbn [fst snd] in *.
    lb. eapply get_lpos_ok; [exact (d_inv _ _ _ _ _ A1)|]. cbn [with_pos a_pos]. pose proof (zlen_nonneg d) as ZD.
    la; [clear - A4 ZD; destruct b; lia|]. la; [clear - A4; cbn [fst]; destruct b; cbn [negb orb]; lia|]. la; [cbn [snd]; clear; lia|]. apply lwp_ret. split; [|exact A5]. split; [exact A1|]. auto.
  Qed.
  Lemma check_read_ok s l n m : linv s l -> lwp m l (lread s l n) -> lwp (check_read n m) l (lread s l n).
  Proof.
    intros V W. eapply lwp_conseq; [apply (check_read_full s l n m (fun _ => True)); [exact V|]|cbn beta; intros x l' [H _]; exact H].
    apply (lwp_conseq _ _ _ _ W). auto.
  Qed.
  Lemma took s l n d l' : zlen d = n -> moved s l (a_pos s + n) l' -> reads d (a_pos s) (a_pos s + n) -> lok l' = lok l -> lread s l n (true, d) l'.
  Proof. intros A B C D. unfold lread. cbn [fst snd]. rewrite A. split; [exact B|]. split; [exact C|]. split; [|reflexivity]. intros _ X _. congruence. Qed.
  Lemma Read_ok s l n : linv s l -> 0 <= n -> lwp (Read n) l (lread s l n).
  Proof.
    intros V N. unfold Read. lg. destruct (n <=? lavailable l) eqn:E.
    - lb. apply take_ok with s; [exact V|clear - N E; lia|]. intros d l' A B C D. apply lwp_ret. exact (took _ _ _ _ _ A B C D).
    - apply check_read_ok; [exact V|]. apply ReadSlow_ok; [exact V|clear - E; lia].
  Qed.
  Lemma ReadChain_ok s l n : linv s l -> 0 <= n -> lwp (ReadChain n) l (lread s l n).
  Proof.
    intros V N. destruct (linv_bounds _ _ V) as (_ & _ & _ & _ & LB5 & _). unfold ReadChain. lg. destruct ((n <=? lavailable l) && (n <=? kMaxBytesToCopy)) eqn:E.
    - lb. apply take_ok with s; [exact V|clear - N E; lia|]. intros d l' A B C D. apply lwp_ret. exact (took _ _ _ _ _ A B C D).
    - apply check_read_ok; [exact V|]. apply ReadSlow_ok; [exact V|clear - E; lia].
  Qed.
  Lemma ReadChain_full s l n : linv s l -> 0 <= n <= lavailable l -> lwp (ReadChain n) l (fun x l' => lread s l n x l' /\ (fst x = true \/ snd x = [])).
  Proof.
    intros V N. unfold ReadChain. lg. destruct ((n <=? lavailable l) && (n <=? kMaxBytesToCopy)) eqn:E.
    - lb. apply take_ok with s; [exact V|clear - N E; lia|]. intros d l' A B C D. apply lwp_ret. split; [exact (took _ _ _ _ _ A B C D)|left; reflexivity].
    - apply check_read_full; [exact V|]. eapply lwp_conseq; [apply ReadSlow_full; [exact V|clear - E N; lia]|]. cbn beta. intros x l' [H1 H2]. split; [exact H1|]. apply H2. clear - N. lia.
  Qed.
End S.
