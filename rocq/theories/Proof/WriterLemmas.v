(** Invariants of the buffered writer, and what its internal functions do. *)
From Verif Require Import Base.Bytes Spec.PosixFile Model.BufferSizer Model.ByteFill Model.BufferedWriter Proof.PosixProof Proof.BufferSizerProof Proof.ByteFillProof.

Lemma bind_some {A B} (m : M A) (f : A -> M B) w a w' : m w = Some (a, w') -> bind m f w = f a w'.
Proof. intros E. unfold bind. rewrite E. reflexivity. Qed.
Lemma bind_get {B} (f : writer -> M B) w : bind get f w = f w w.
Proof. reflexivity. Qed.
Lemma bind_ret {A B} (a : A) (f : A -> M B) w : bind (ret a) f w = f a w.
Proof. reflexivity. Qed.
Lemma bind_modify {B} g (f : unit -> M B) w : bind (modify g) f w = f tt (g w).
Proof. reflexivity. Qed.
Lemma bind_assert {B} b (f : unit -> M B) w : b = true -> bind (assert b) f w = f tt w.
Proof. intros ->. reflexivity. Qed.
Lemma bind_of_option {A B} o (a : A) (f : A -> M B) w : o = Some a -> bind (of_option o) f w = f a w.
Proof. intros ->. reflexivity. Qed.
Lemma bind_syscall {A B} (s : fd -> A * fd) (f : A -> M B) w a d : s (w_fd w) = (a, d) -> bind (syscall s) f w = f a (set_fd d w).
Proof. intros E. unfold bind, syscall. rewrite E. reflexivity. Qed.
Lemma bind_bind {A B C} (m : M A) (f : A -> M B) (g : B -> M C) w : bind (bind m f) g w = bind m (fun a => bind (f a) g) w.
Proof. unfold bind. destruct (m w) as [[a w']|]; reflexivity. Qed.

Notation file w := (f_content (w_fd w)).
Notation kMax := kMaxFdPosition.
Definition used (w : writer) : Z := Z.max (w_cur w) (w_written w).
Definition data (w : writer) : list Z := ztake (used w) (w_buf w).
Definition view (delta : Z) (w : writer) : list Z * Z := (write_at (file w) (w_start_pos w + delta) (data w), w_start_pos w + w_cur w).

Record inv (w : writer) : Prop := {
  i_start : 0 <= w_start_pos w <= kMax; i_cur : 0 <= w_cur w <= w_lim w; i_lim : w_start_pos w + w_lim w <= 2 ^ 64 - 1;
  i_written : 0 <= w_written w; i_wl : w_written w <= w_lim w \/ w_failed w = true; i_buf : used w <= zlen (w_buf w);
  i_sizer : write_sizer_ok (w_sizer w); i_base : ws_base_pos (w_sizer w) <= w_start_pos w; i_notok : ok w = false -> w_lim w = 0;
  i_rand : 0 < w_written w -> w_random w = Some true; i_size : zlen (file w) <= kMax }.
Record link (delta : Z) (w : writer) : Prop := {
  l_pos : 0 <= w_start_pos w + delta; l_ind : w_independent w = true -> delta = 0 /\ f_append (w_fd w) = false;
  l_app : w_independent w = false -> f_append (w_fd w) = true -> zlen (file w) = w_start_pos w + delta;
  l_fpos : w_independent w = false -> f_append (w_fd w) = false -> f_pos (w_fd w) = w_start_pos w + delta;
  l_rand : w_random w <> Some false -> delta = 0 /\ f_append (w_fd w) = false }.
Definition eof (delta : Z) (w : writer) : Prop := w_written w = 0 /\ zlen (file w) = w_start_pos w + delta.
Definition nofail (w : writer) : Prop := Forall (fun n => 0 < n) (f_calls (w_fd w)).
Definition fits (delta : Z) (w : writer) : Prop := w_start_pos w + used w + Z.max 0 delta <= kMax.
Definition seekable (w : writer) : Prop := w_random w <> Some false.
Record frame (w w' : writer) : Prop := {
  fr_ind : w_independent w' = w_independent w; fr_app : f_append (w_fd w') = f_append (w_fd w); fr_open : w_open w' = w_open w;
  fr_own : w_owning w' = w_owning w; fr_rand : w_random w <> None -> w_random w' = w_random w }.
Record moves (P : Prop) (delta : Z) (w : writer) (d : list Z) (w' : writer) : Prop := {
  m_inv : inv w'; m_frame : frame w w';
  m_view : ok w' = true -> link delta w' /\ view delta w' = (write_at (fst (view delta w)) (snd (view delta w) + delta) d, snd (view delta w) + zlen d);
  m_eof : eof delta w -> (ok w' = true -> eof delta w') /\ (exists t, fst (view delta w) ++ d = file w' ++ t) /\ zlen (file w) <= zlen (file w');
  m_nofail : nofail w -> nofail w' /\ (seekable w -> seekable w');
  m_live : P -> nofail w -> fits delta w -> snd (view delta w) + zlen d + Z.max 0 delta <= kMax -> ok w' = true /\ fits delta w';
  m_dead : ok w' = false -> w_written w' = 0 }.

Definition empty_buffer (w : writer) : Prop := w_cur w = 0 /\ w_lim w = 0 /\ w_written w = 0.
Ltac dz := try match goal with
  | |- w_written _ = 0 => solve [congruence | match goal with H : w_written ?a = _ |- w_written ?a = 0 => rewrite H; assumption end |
      match goal with M : moves _ _ _ _ ?a, O : ok ?a = false |- w_written ?a = 0 => exact (m_dead _ _ _ _ _ M O) end |
      match goal with M : empty_buffer ?a |- w_written ?a = 0 => exact (proj2 (proj2 M)) end |
      match goal with M : empty_buffer ?a, H : w_written ?b = w_written ?a |- w_written ?b = 0 => exact (eq_trans H (proj2 (proj2 M))) end]
  | |- ok _ = false -> w_written _ = 0 =>
    let X := fresh in intro X; solve [exfalso; congruence | match goal with O : ok _ = true |- _ => exact (False_ind _ (Bool.diff_true_false (eq_trans (eq_sym O) X))) end |
      match goal with M : empty_buffer ?a |- w_written ?a = 0 => exact (proj2 (proj2 M)) end]
  end.
Lemma frame_refl w : frame w w.
Proof. constructor; reflexivity || (intros; reflexivity). Qed.
Lemma frame_trans a b c : frame a b -> frame b c -> frame a c.
Proof. intros [A1 A2 A3 A4 A5] [B1 B2 B3 B4 B5]. constructor; try congruence. intros N. specialize (A5 N). rewrite B5 by congruence. exact A5. Qed.
Lemma data_len w : inv w -> zlen (data w) = used w.
Proof. intros I1. unfold data. rewrite zlen_ztake. pose proof (i_buf w I1). pose proof (i_cur w I1). unfold used in *. lia. Qed.
Lemma view_eof delta w : inv w -> eof delta w -> fst (view delta w) = file w ++ data w /\ snd (view delta w) + delta = zlen (file w ++ data w).
Proof.
  intros I1 [W E]. unfold view. cbn [fst snd]. rewrite <- E, write_at_end. split; [reflexivity|]. rewrite zlen_app, data_len by exact I1. unfold used. pose proof (i_cur w I1). lia.
Qed.
Lemma view_pos delta w : inv w -> link delta w -> 0 <= snd (view delta w) + delta.
Proof. intros I1 L. unfold view. cbn [snd]. pose proof (l_pos _ _ L). pose proof (i_cur w I1). lia. Qed.
Lemma moves_refl P delta w : inv w -> ok w = true -> link delta w -> moves P delta w [] w.
Proof.
  intros I1 O L. constructor; auto using frame_refl.
  - intros _. split; [exact L|]. rewrite write_at_nil. change (zlen (@nil Z)) with 0. rewrite Z.add_0_r. apply surjective_pairing.
  - intros E. split; [auto|]. destruct (view_eof delta w I1 E) as [V _]. rewrite V, app_nil_r. split; [exists (data w); reflexivity|lia].
  - congruence.
Qed.
Lemma moves_trans P delta w d1 w1 d2 w2 : inv w -> link delta w -> ok w1 = true -> moves P delta w d1 w1 -> moves P delta w1 d2 w2 -> moves P delta w (d1 ++ d2) w2.
Proof.
  intros I0 L0 O1 A B. pose proof (zlen_nonneg d1) as N1. pose proof (zlen_nonneg d2) as N2. destruct (m_view _ _ _ _ _ A O1) as [L1 V1].
  assert (F1 : fst (view delta w1) = write_at (fst (view delta w)) (snd (view delta w) + delta) d1) by (rewrite V1; reflexivity).
  assert (S1 : snd (view delta w1) = snd (view delta w) + zlen d1) by (rewrite V1; reflexivity). constructor.
  - exact (m_inv _ _ _ _ _ B).
  - exact (frame_trans _ _ _ (m_frame _ _ _ _ _ A) (m_frame _ _ _ _ _ B)).
  - intros O2. destruct (m_view _ _ _ _ _ B O2) as [L2 V2]. split; [exact L2|]. rewrite V2, F1, S1, zlen_app. f_equal; [|lia].
    replace (snd (view delta w) + zlen d1 + delta) with (snd (view delta w) + delta + zlen d1) by lia. apply write_at_app. apply view_pos; assumption.
  - intros E. destruct (m_eof _ _ _ _ _ A E) as (E1 & _ & Z1). specialize (E1 O1). destruct (m_eof _ _ _ _ _ B E1) as (E2 & (t & T) & Z2).
    split; [exact E2|]. split; [exists t|lia]. rewrite <- T, F1. destruct (view_eof delta w I0 E) as [Q1 Q2]. rewrite Q2, Q1, write_at_end, app_assoc. reflexivity.
  - intros N. destruct (m_nofail _ _ _ _ _ A N) as [N3 N4]. destruct (m_nofail _ _ _ _ _ B N3) as [N5 N6]. auto.
  - intros p N F S2. rewrite zlen_app in S2. destruct (m_live _ _ _ _ _ A p N F) as [_ F2]; [lia|].
    apply (m_live _ _ _ _ _ B p); auto; [exact (proj1 (m_nofail _ _ _ _ _ A N))|lia].
  - exact (m_dead _ _ _ _ _ B).
Qed.
Lemma moves_weaken (P Q : Prop) delta w d w' : (Q -> P) -> moves P delta w d w' -> moves Q delta w d w'.
Proof. intros H [A B C D E F G]. constructor; auto. Qed.

Ltac ws := cbn [w_fd w_failed w_open w_start_pos w_buf w_cur w_lim w_written w_sizer w_independent w_random w_owning
  set_fd set_start_pos set_buf set_written set_sizer set_random set_state f_content f_pos f_append f_calls].
Ltac ws_in H := cbn [w_fd w_failed w_open w_start_pos w_buf w_cur w_lim w_written w_sizer w_independent w_random w_owning
  set_fd set_start_pos set_buf set_written set_sizer set_random set_state f_content f_pos f_append f_calls] in H.
(** Fail() *)
Lemma Fail_ok w : inv w -> ok w = true -> exists w', Fail w = Some (false, w') /\ inv w' /\ frame w w' /\ ok w' = false /\ file w' = file w /\
  w_start_pos w' = w_start_pos w /\ w_lim w' = 0 /\ f_calls (w_fd w') = f_calls (w_fd w) /\ w_random w' = w_random w /\ w_written w' = w_written w /\ w_sizer w' = w_sizer w.
Proof.
  intros I1 O. unfold Fail. rewrite bind_get. unfold ok in O. apply andb_prop in O as [O1 O2]. destruct (w_failed w) eqn:F; [discriminate|]. rewrite O1.
  rewrite bind_modify, bind_bind. unfold get_pos. rewrite bind_bind, bind_get, bind_bind. pose proof (i_lim w I1). rewrite bind_assert by (ws; lia).
  rewrite !bind_ret, bind_modify. eexists. split; [reflexivity|]. pose proof (i_cur w I1). pose proof (i_buf w I1). pose proof (i_written w I1). unfold used in *. pose proof (i_start w I1).
  split; [|repeat split; auto; ws; auto].
  constructor; ws; auto; try lia; try apply I1. unfold used. ws. lia.
Qed.
Lemma inv_set_fd w f : inv w -> zlen (f_content f) <= kMax -> inv (set_fd f w).
Proof. intros [] S1. constructor; unfold used, ok in *; ws; auto. Qed.
Lemma moves_failed (P : Prop) delta w d w' : inv w' -> frame w w' -> ok w' = false ->
  (eof delta w -> (exists t, fst (view delta w) ++ d = file w' ++ t) /\ zlen (file w) <= zlen (file w')) ->
  (nofail w -> nofail w' /\ (seekable w -> seekable w')) ->
  (P -> nofail w -> fits delta w -> snd (view delta w) + zlen d + Z.max 0 delta <= kMax -> False) -> w_written w' = 0 -> moves P delta w d w'.
Proof. intros I1 F O E N L W. constructor; auto. - congruence. - intros E1. split; [congruence|auto]. - intros p n f s. destruct (L p n f s). Qed.

Lemma next_call_spec f : exists n f', next_call f = (n, f') /\ f_content f' = f_content f /\ f_pos f' = f_pos f /\ f_append f' = f_append f /\
  (Forall (fun n => 0 < n) (f_calls f) -> 0 < n /\ Forall (fun n => 0 < n) (f_calls f')).
Proof.
  unfold next_call. destruct (f_calls f) as [|n l] eqn:E.
  - exists (2 ^ 62), f. repeat split; auto; try lia. rewrite E. assumption.
  - eexists n, _. split; [reflexivity|]. repeat split; auto; inversion H; assumption.
Qed.
Lemma sys_write_spec delta w d : link delta w -> d <> [] ->
  (exists f', sys_write (if w_independent w then Some (w_start_pos w) else None) d (w_fd w) = (None, f') /\ f_content f' = file w /\ f_append f' = f_append (w_fd w) /\
     (nofail w -> Forall (fun n => 0 < n) (f_calls f') /\ kMax < w_start_pos w + delta + zlen d)) \/
  (exists k f', sys_write (if w_independent w then Some (w_start_pos w) else None) d (w_fd w) = (Some k, f') /\ 0 < k <= zlen d /\
     f_content f' = write_at (file w) (w_start_pos w + delta) (ztake k d) /\ f_append f' = f_append (w_fd w) /\
     (w_independent w = false -> f_append (w_fd w) = false -> f_pos f' = w_start_pos w + delta + k) /\
     (nofail w -> Forall (fun n => 0 < n) (f_calls f')) /\ w_start_pos w + delta + k <= kMax).
Proof.
  intros L D. assert (D0 : 0 < zlen d) by (destruct d; [contradiction|rewrite zlen_cons; pose proof (zlen_nonneg d); lia]).
  unfold sys_write. destruct (next_call_spec (w_fd w)) as (n & f' & E & C & P & A & N). rewrite E.
  assert (Q : match (if w_independent w then Some (w_start_pos w) else None) with Some p => p | None => if f_append f' then zlen (f_content f') else f_pos f' end = w_start_pos w + delta).
  { rewrite A, C, P. destruct (w_independent w) eqn:I1; [rewrite (proj1 (l_ind _ _ L I1)); lia|]. destruct (f_append (w_fd w)) eqn:A1; [exact (l_app _ _ L I1 A1)|exact (l_fpos _ _ L I1 A1)]. }
  rewrite Q. destruct ((n <=? 0) || (kMax <? w_start_pos w + delta + Z.min (zlen d) n)) eqn:B; [left|right].
  - exists f'. repeat split; auto; destruct (N H); auto. lia.
  - eexists _, _. split; [reflexivity|]. apply orb_false_elim in B as [B1 B2]. cbn [f_content f_append f_pos f_calls]. rewrite C.
    split; [lia|]. split; [reflexivity|]. split; [exact A|]. split; [|split; [intros F; apply (N F)|lia]].
    intros I1 A1. rewrite I1. reflexivity.
Qed.
Lemma view_empty delta w : empty_buffer w -> view delta w = (file w, w_start_pos w).
Proof. intros (C & L & W). unfold view, data, used. rewrite C, W. rewrite ztake_nonpos by lia. rewrite write_at_nil. f_equal. lia. Qed.
Lemma ok_iff w : ok w = true <-> w_open w = true /\ w_failed w = false.
Proof. unfold ok. destruct (w_open w), (w_failed w); cbn [negb andb]; intuition congruence. Qed.

Lemma write_loop_ok delta fuel : forall src w, inv w -> ok w = true -> link delta w -> empty_buffer w -> src <> [] -> zlen src <= Z.of_nat fuel ->
  w_start_pos w + zlen src <= kMax ->
  exists b w', write_loop fuel src w = Some (b, w') /\ b = ok w' /\ moves True delta w src w' /\ empty_buffer w' /\ w_sizer w' = w_sizer w /\ w_start_pos w <= w_start_pos w' /\
    w_random w' = w_random w.
Proof.
  induction fuel as [|fuel IH]; intros src w I1 O L EB S1 FU SZ; [destruct src; [contradiction|]; rewrite zlen_cons in FU; pose proof (zlen_nonneg src); lia|].
  pose proof (view_empty delta w EB) as VE. destruct EB as (EC & EL & EW).
  assert (S0 : 0 < zlen src) by (destruct src; [contradiction|rewrite zlen_cons; pose proof (zlen_nonneg src); lia]).
  cbn [write_loop]. rewrite bind_get. set (n := Z.min (Z.min (zlen src) (2 ^ 62)) (2 ^ 30)). assert (N : 0 < n <= zlen src) by lia. clearbody n.
  assert (TN : ztake n src <> []) by (intro E; apply (f_equal zlen) in E; rewrite zlen_ztake in E; change (zlen (@nil Z)) with 0 in E; lia).
  pose proof (i_start w I1) as IS. pose proof (l_pos _ _ L) as LP.
  destruct (sys_write_spec delta w (ztake n src) L TN) as [(f' & E & C & A & F)|(k & f' & E & K & C & A & P & F & M)].
  - rewrite (bind_syscall _ _ _ _ _ E). cbv beta iota. set (w1 := set_fd f' w).
    assert (I2 : inv w1) by (apply inv_set_fd; [exact I1|rewrite C; apply I1]). destruct (Fail_ok w1 I2 O) as (w' & E' & I3 & FR & O3 & FI & ST & LI & CA & RA & WR & SI).
    exists false, w'. split; [exact E'|]. split; [symmetry; exact O3|]. assert (FR2 : frame w w1) by (constructor; ws; auto).
    split; [|split; [split; [pose proof (i_cur _ I3); lia|split; [exact LI|rewrite WR; exact EW]]|split; [exact SI|split; [rewrite ST; apply Z.le_refl|rewrite RA; reflexivity]]]].
    apply moves_failed; auto; dz.
    + exact (frame_trans _ _ _ FR2 FR).
    + intros _. rewrite FI, VE. cbn [fst w1 set_fd w_fd]. unfold w1. cbn [w_fd set_fd]. rewrite C. split; [exists src; reflexivity|lia].
    + intros NF. destruct (F NF) as [F1 _]. split; [unfold nofail; rewrite CA; exact F1|]. unfold seekable. rewrite RA. auto.
    + intros _ NF _ H. destruct (F NF) as [_ F2]. rewrite VE in H. cbn [snd] in H. rewrite zlen_ztake in F2. lia.
  - rewrite (bind_syscall _ _ _ _ _ E). cbv beta iota. rewrite zlen_ztake in K.
    rewrite bind_assert by (clear - K N; lia). unfold move_start_pos. rewrite bind_bind, bind_get, bind_bind, bind_assert by (cbn [w_start_pos set_fd]; unfold kMax in *; clear - K SZ N; lia).
    rewrite bind_modify. cbn [w_start_pos set_fd]. set (w1 := set_start_pos (w_start_pos w + k) (set_fd f' w)). rewrite ztake_ztake, Z.min_l in C by (clear - K; lia).
    assert (KT : zlen (ztake k src) = k) by (rewrite zlen_ztake; clear - K N; lia).
    assert (TK : ztake k src <> []) by (intro X; rewrite X in KT; change (zlen (@nil Z)) with 0 in KT; lia).
    assert (CS : zlen (f_content f') <= kMax) by (rewrite C, zlen_write_at by (auto; lia); rewrite KT; pose proof (i_size w I1); lia).
    assert (I2 : inv w1).
    { pose proof (i_base w I1) as IB. assert (IB2 : ws_base_pos (w_sizer w) <= w_start_pos w + k) by lia. assert (ST2 : 0 <= w_start_pos w + k <= kMax) by lia.
      assert (LI2 : w_start_pos w + k + w_lim w <= 2 ^ 64 - 1) by (rewrite EL; unfold kMax in *; lia).
      clear - I1 CS IB2 ST2 LI2. destruct I1. constructor; unfold used, ok in *; unfold w1; ws; auto. }
    assert (O2 : ok w1 = true) by exact O. assert (EB2 : empty_buffer w1) by (repeat split; assumption).
    assert (L2 : link delta w1).
    { constructor; unfold w1; ws; rewrite ?A.
      - lia.
      - apply L.
      - intros X Y. rewrite C, zlen_write_at, KT by (auto; lia). rewrite (l_app _ _ L X Y). lia.
      - intros X Y. rewrite (P X Y). lia.
      - apply L. }
    assert (M1 : moves True delta w (ztake k src) w1).
    { constructor; auto; dz.
      - constructor; ws; auto.
      - intros _. split; [exact L2|]. rewrite (view_empty delta w1 EB2), VE. cbn [fst snd]. unfold w1 at 1. cbn [w_fd set_fd set_start_pos]. rewrite C, KT. reflexivity.
      - intros [E1 E2]. rewrite VE. cbn [fst]. rewrite <- E2, write_at_end in C. split; [intros _; split; [exact EW|]|].
        + unfold w1. cbn [w_fd set_fd set_start_pos w_start_pos]. rewrite C, zlen_app. lia.
        + unfold w1. cbn [w_fd set_fd set_start_pos w_start_pos]. rewrite C. split; [exists []; rewrite app_nil_r; reflexivity|rewrite zlen_app; lia].
      - intros NF. split; [exact (F NF)|auto].
      - intros _ NF FI H. split; [exact O2|]. rewrite VE in H. cbn [snd] in H. unfold fits, used, w1. ws. rewrite EC, EW. lia. }
    destruct (zdrop k src) as [|z l] eqn:R.
    + assert (X : ztake k src = src) by (rewrite <- (ztake_zdrop k src) at 2; rewrite R, app_nil_r; reflexivity). rewrite X in M1.
      exists true, w1. split; [reflexivity|]. split; [symmetry; exact O2|]. split; [exact M1|]. split; [exact EB2|]. split; [reflexivity|]. split; [unfold w1; ws; lia|reflexivity].
    + rewrite <- R. assert (ZD : zlen (zdrop k src) = zlen src - k) by (rewrite zlen_zdrop; clear - K N; lia).
      destruct (IH (zdrop k src) w1) as (b & w' & E' & B & M2 & EB3 & SI & ST & RA); auto.
      * rewrite R. discriminate.
      * lia.
      * rewrite ZD. unfold w1; ws. lia.
      * exists b, w'. split; [exact E'|]. split; [exact B|]. split; [|split; [exact EB3|split; [exact SI|split; [unfold w1 in ST; ws_in ST; lia|exact RA]]]].
        rewrite <- (ztake_zdrop k src). exact (moves_trans _ _ _ _ _ _ _ I1 L O2 M1 M2).
Qed.
Lemma WriteInternal_ok delta src w : inv w -> ok w = true -> link delta w -> empty_buffer w -> src <> [] ->
  exists b w', WriteInternal src w = Some (b, w') /\ b = ok w' /\ moves True delta w src w' /\ empty_buffer w' /\ w_sizer w' = w_sizer w /\ w_start_pos w <= w_start_pos w' /\
    w_random w' = w_random w.
Proof.
  intros I1 O L EB S1. unfold WriteInternal. rewrite bind_get. rewrite bind_assert by (rewrite O; destruct src; [contradiction|reflexivity]).
  pose proof (i_start w I1) as IS. unfold u64. rewrite Z.mod_small by (unfold kMax in *; lia).
  destruct (kMax - w_start_pos w <? zlen src) eqn:Q.
  - destruct (Fail_ok w I1 O) as (w' & E' & I3 & FR & O3 & FI & ST & LI & CA & RA & WR & SI). exists false, w'. pose proof (view_empty delta w EB) as VE. destruct EB as (EC & EL & EW).
    split; [exact E'|]. split; [symmetry; exact O3|].
    split; [|split; [split; [pose proof (i_cur _ I3); lia|split; [exact LI|rewrite WR; exact EW]]|split; [exact SI|split; [rewrite ST; lia|exact RA]]]].
    apply moves_failed; auto; dz.
    + intros _. rewrite FI, VE. split; [exists src; reflexivity|lia].
    + unfold nofail, seekable. rewrite CA, RA. auto.
    + intros _ _ _ H. rewrite VE in H. cbn [snd] in H. lia.
  - apply write_loop_ok; auto; [unfold zlen; lia|lia].
Qed.
Lemma sys_seek_spec p f : exists b f', sys_seek p f = (b, f') /\ f_content f' = f_content f /\ f_append f' = f_append f /\
  (b = false -> f_pos f' = f_pos f) /\ (b = true -> f_pos f' = p) /\ (Forall (fun n => 0 < n) (f_calls f) -> b = true /\ Forall (fun n => 0 < n) (f_calls f')).
Proof.
  unfold sys_seek. destruct (next_call_spec f) as (n & f' & E & C & P & A & N). rewrite E. destruct (n <=? 0) eqn:Q; eexists _, _; (split; [reflexivity|]); ws; repeat split; auto; try discriminate;
    try (intros; destruct (N H); auto; lia); try (destruct (N H); auto; lia).
Qed.
Lemma sys_size_spec f : exists s f', sys_size f = (s, f') /\ f_content f' = f_content f /\ f_append f' = f_append f /\ f_pos f' = f_pos f /\
  (forall n, s = Some n -> n = zlen (f_content f)) /\ (Forall (fun n => 0 < n) (f_calls f) -> s <> None /\ Forall (fun n => 0 < n) (f_calls f')).
Proof.
  unfold sys_size. destruct (next_call_spec f) as (n & f' & E & C & P & A & N). rewrite E. eexists _, f'. split; [reflexivity|]. repeat split; auto.
  - intros m. destruct (n <=? 0); [discriminate|]. intros X. injection X as <-. rewrite C. reflexivity.
  - destruct (N H). destruct (n <=? 0) eqn:Q; [lia|discriminate].
  - apply (N H).
Qed.
Lemma sys_truncate_spec p f : exists b f', sys_truncate p f = (b, f') /\ f_append f' = f_append f /\ f_pos f' = f_pos f /\
  f_content f' = (if b then set_size (f_content f) p else f_content f) /\ (Forall (fun n => 0 < n) (f_calls f) -> b = true /\ Forall (fun n => 0 < n) (f_calls f')).
Proof.
  unfold sys_truncate. destruct (next_call_spec f) as (n & f' & E & C & P & A & N). rewrite E. destruct (n <=? 0) eqn:Q; eexists _, _; (split; [reflexivity|]); ws; repeat split; auto;
    try (destruct (N H); auto; lia). rewrite C. reflexivity.
Qed.
Lemma sys_other_spec f : exists b f', sys_other f = (b, f') /\ f_content f' = f_content f /\ f_append f' = f_append f /\ f_pos f' = f_pos f /\
  (Forall (fun n => 0 < n) (f_calls f) -> b = true /\ Forall (fun n => 0 < n) (f_calls f')).
Proof.
  unfold sys_other. destruct (next_call_spec f) as (n & f' & E & C & P & A & N). rewrite E. eexists _, f'. split; [reflexivity|]. repeat split; auto; destruct (N H); auto. lia.
Qed.
(** Everything which can be seen except the state of the file descriptor and supports_random_access_ is the same. *)
Definition same_buffer (w w' : writer) : Prop :=
  w_start_pos w' = w_start_pos w /\ w_buf w' = w_buf w /\ w_cur w' = w_cur w /\ w_lim w' = w_lim w /\ w_written w' = w_written w /\ w_sizer w' = w_sizer w /\ file w' = file w.
Lemma same_view delta w w' : same_buffer w w' -> view delta w' = view delta w /\ used w' = used w.
Proof. intros (A & B & C & _ & D & _ & E). unfold view, data, used. rewrite A, B, C, D, E. auto. Qed.
Lemma moves_same P delta w w' : inv w -> inv w' -> frame w w' -> ok w' = true -> link delta w' -> same_buffer w w' -> (nofail w -> nofail w' /\ (seekable w -> seekable w')) -> moves P delta w [] w'.
Proof.
  intros I0 I1 F O L B N. destruct (same_view delta w w' B) as [V U]. destruct B as (B1 & _ & _ & _ & B2 & _ & B3). constructor; auto; dz.
  - intros _. split; [exact L|]. rewrite V, write_at_nil. change (zlen (@nil Z)) with 0. rewrite Z.add_0_r. apply surjective_pairing.
  - intros E. split; [intros _; unfold eof; rewrite B1, B2, B3; exact E|]. rewrite B3. split; [|lia]. destruct (view_eof delta w I0 E) as [Q _]. rewrite Q, app_nil_r. exists (data w). reflexivity.
  - intros _ _ X _. split; [exact O|]. unfold fits. rewrite U, B1. exact X.
Qed.
(** The state with the run restarted satisfies the invariant. *)
Definition core (w : writer) : Prop := inv (set_sizer (ws_BeginRun (w_start_pos w) (w_sizer w)) w).
Lemma core_of_inv w : inv w -> core w.
Proof. intros []. constructor; unfold used, ok in *; ws; auto. cbn [ws_BeginRun ws_base_pos]. lia. Qed.
Lemma inv_of_core w : core w -> ws_base_pos (w_sizer w) <= w_start_pos w -> inv w.
Proof. intros [] B. constructor; unfold used, ok in *; ws_in i_start0; auto. Qed.
Lemma link_0 delta w : link delta w -> seekable w -> delta = 0 /\ f_append (w_fd w) = false.
Proof. intros L S1. exact (l_rand _ _ L S1). Qed.

Lemma SupportsRandomAccess_ok delta w : inv w -> ok w = true -> link delta w ->
  exists b w', SupportsRandomAccess w = Some (b, w') /\ moves True delta w [] w' /\ (ok w' = true -> same_buffer w w') /\
    (b = true -> ok w' = true /\ w_random w' = Some true) /\ (b = false -> w_random w' = Some false) /\ (nofail w -> seekable w -> b = true) /\
    (ok w' = false -> w_written w' = w_written w /\ w_start_pos w' = w_start_pos w /\ w_sizer w' = w_sizer w /\ file w' = file w).
Proof.
  intros I1 O L. unfold SupportsRandomAccess. rewrite bind_get. destruct (w_random w) as [r|] eqn:R.
  { exists r, w. split; [reflexivity|]. split; [apply moves_refl; assumption|]. split; [intros _; repeat split|]. split; [intros ->; auto|]. split; [intros ->; exact R|].
    split; [|congruence]. intros _ S1. unfold seekable in S1. rewrite R in S1. destruct r; congruence. }
  rewrite O. cbn [negb]. assert (R' : seekable w) by (unfold seekable; congruence). destruct (link_0 delta w L R') as [-> AP].
  unfold sys_seek_end. destruct (sys_seek_spec (zlen (file w)) (w_fd w)) as (b & f' & E & C & A & P0 & P1 & N).
  rewrite (bind_syscall (fun f => sys_seek (zlen (f_content f)) f) _ w b f' E).
  assert (I2 : inv (set_fd f' w)) by (apply inv_set_fd; [exact I1|rewrite C; apply I1]).
  destruct b; cbn [negb]; cbv iota.
  - destruct (sys_seek_spec (w_start_pos w) f') as (b & f2 & E2 & C2 & A2 & P02 & P12 & N2).
    rewrite (bind_syscall (sys_seek (w_start_pos w)) _ (set_fd f' w) b f2 E2).
    assert (I3 : inv (set_fd f2 (set_fd f' w))) by (apply inv_set_fd; [exact I2|rewrite C2, C; apply I1]).
    destruct b; cbn [negb]; cbv iota.
    + rewrite bind_modify. eexists true, _. split; [reflexivity|]. set (w' := set_random true _).
      assert (SB : same_buffer w w') by (unfold w', same_buffer; ws; repeat split; congruence).
      split; [|split; [auto|split; [auto|split; [discriminate|split; [auto|intros X; exfalso; clear - X O; unfold w', ok in *; ws_in X; congruence]]]]].
      apply moves_same; auto.
      * clear - I3. destruct I3. constructor; unfold w', used, ok in *; ws; auto.
      * constructor; unfold w'; ws; auto; congruence.
      * constructor; unfold w'; ws; try (intros _; split; [reflexivity|congruence]); try (apply L); try congruence.
        intros _ _. rewrite (P12 eq_refl). lia.
      * intros NF. split; [exact (proj2 (N2 (proj2 (N NF))))|]. intros _. unfold seekable, w'. ws. discriminate.
    + destruct (Fail_ok _ I3 O) as (w' & E' & I4 & FR & O3 & FI & ST & LI & CA & RA & WR & SI).
      rewrite (bind_some _ _ _ _ _ E'), bind_modify. eexists false, _. split; [reflexivity|].
      split; [|split; [intros X; exfalso; change (ok w' = true) in X; congruence|split; [discriminate|split; [reflexivity|split; [intros NF _; destruct (N2 (proj2 (N NF))); discriminate|]]]]].
      * apply moves_failed; auto; dz.
        -- clear - I4 WR R I1. pose proof (i_rand w I1) as IR. rewrite R in IR. ws_in WR. destruct I4. constructor; unfold used, ok in *; ws; auto. rewrite WR. intros X. specialize (IR X). discriminate.
        -- destruct FR as [F1 F2 F3 F4 F5]. constructor; ws; ws_in F1; ws_in F2; ws_in F3; ws_in F4; congruence.
        -- intros EO. ws. rewrite FI. ws. rewrite C2, C. split; [|lia]. destruct (view_eof 0 w I1 EO) as [Q _]. rewrite Q, app_nil_r. exists (data w). reflexivity.
        -- intros NF. destruct (N2 (proj2 (N NF))). discriminate.
        -- intros _ NF. destruct (N2 (proj2 (N NF))). discriminate.
        -- pose proof (i_rand w I1) as IR. rewrite R in IR. pose proof (i_written w I1) as IW. ws_in WR. ws. rewrite WR. destruct (Z.lt_ge_cases 0 (w_written w)) as [X|X]; [specialize (IR X); discriminate|]. clear - X IW. lia.
      * intros _. ws. rewrite FI, WR, ST, SI. ws. repeat split; congruence.
  - rewrite bind_modify. eexists false, _. split; [reflexivity|]. set (w' := set_random false _).
    assert (SB : same_buffer w w') by (unfold w', same_buffer; ws; repeat split; congruence).
    split; [|split; [auto|split; [discriminate|split; [auto|split; [intros NF _; destruct (N NF); discriminate|intros X; exfalso; clear - X O; unfold w', ok in *; ws_in X; congruence]]]]].
    apply moves_same; auto.
    + clear - I2 R I1. pose proof (i_rand w I1) as IR. rewrite R in IR. destruct I2. constructor; unfold w', used, ok in *; ws; auto. intros X. specialize (IR X). discriminate.
    + constructor; unfold w'; ws; auto; congruence.
    + constructor; unfold w'; ws; try (intros _; split; [reflexivity|congruence]); try (apply L); try congruence.
      intros X Y. rewrite (P0 eq_refl). apply L; congruence.
    + intros NF. destruct (N NF). discriminate.
Qed.
