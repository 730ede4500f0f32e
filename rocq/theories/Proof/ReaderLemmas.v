(** Invariants of the buffered reader, and what its internal functions do. *)
From Verif Require Import Base.Bytes Model.BufferSizer Proof.BufferSizerProof.
From Verif Require Import Model.BufferedReader Spec.BufferedReaderSpec.
Import BufferedWriter(fd, f_content, f_pos, f_append, f_calls, Build_fd, next_call, kMaxFdPosition, sys_seek, sys_size, sys_tell, sys_other).

Lemma kmax : kMaxFdPosition = 9223372036854775807.
Proof. reflexivity. Qed.
Ltac rcbn := cbn [set_fd set_state set_limit_pos set_buf set_sizer set_spaces set_random r_fd r_failed r_open r_limit_pos r_buf r_cur r_sizer r_spaces r_independent
  r_growing r_random r_owning available exact_size rs_set_exact_size rs_exact_size rs_base_pos rs_BeginRun rs_set_read_all_hint ok fst snd].
Ltac rcbn_in H := cbn [set_fd set_state set_limit_pos set_buf set_sizer set_spaces set_random r_fd r_failed r_open r_limit_pos r_buf r_cur r_sizer r_spaces r_independent
  r_growing r_random r_owning available exact_size rs_set_exact_size rs_exact_size rs_base_pos rs_BeginRun rs_set_read_all_hint ok fst snd] in H.
(** ** Weakest preconditions *)
Definition wp {A} (m : M A) (r : reader) (Q : A -> reader -> Prop) : Prop := match m r with Some (a, r') => Q a r' | None => False end.
Lemma wp_bind {A B} (m : M A) (f : A -> M B) r Q : wp m r (fun a r' => wp (f a) r' Q) -> wp (bind m f) r Q.
Proof. unfold wp, bind. destruct (m r) as [[a r']|]; exact (fun x => x). Qed.
Lemma wp_ret {A} (a : A) r (Q : A -> reader -> Prop) : Q a r -> wp (ret a) r Q.
Proof. exact (fun x => x). Qed.
Lemma wp_get r (Q : reader -> reader -> Prop) : Q r r -> wp get r Q.
Proof. exact (fun x => x). Qed.
Lemma wp_modify f r (Q : unit -> reader -> Prop) : Q tt (f r) -> wp (modify f) r Q.
Proof. exact (fun x => x). Qed.
Lemma wp_assert b r (Q : unit -> reader -> Prop) : b = true -> Q tt r -> wp (assert b) r Q.
Proof. intros ->. exact (fun x => x). Qed.
Lemma wp_of_option {A} o (a : A) r (Q : A -> reader -> Prop) : o = Some a -> Q a r -> wp (of_option o) r Q.
Proof. intros ->. exact (fun x => x). Qed.
Lemma wp_syscall {A} (s : fd -> A * fd) r (Q : A -> reader -> Prop) : (forall a d, s (r_fd r) = (a, d) -> Q a (set_fd d r)) -> wp (syscall s) r Q.
Proof. intros H. unfold wp, syscall. destruct (s (r_fd r)) as [a d]. exact (H a d eq_refl). Qed.
Lemma wp_conseq {A} (m : M A) r (P Q : A -> reader -> Prop) : wp m r P -> (forall a r', P a r' -> Q a r') -> wp m r Q.
Proof. unfold wp. destruct (m r) as [[a r']|]; [intros H1 H2; exact (H2 _ _ H1)|intros []]. Qed.
Lemma wp_some {A} (m : M A) r Q : wp m r Q -> exists a r', m r = Some (a, r') /\ Q a r'.
Proof. unfold wp. destruct (m r) as [[a r']|]; [intros H; exists a, r'; split; [reflexivity|exact H]|intros []]. Qed.

Ltac bnd := apply wp_bind.
Ltac gt := apply wp_bind; apply wp_get.
Ltac md := apply wp_bind; apply wp_modify.
Ltac ast := apply wp_bind; apply wp_assert; [|].

(** ** The invariant *)
Section S.
  Variables (content : list Z) (shift : Z).
  Definition reliable (r : reader) : Prop := Forall (fun n => 0 < n) (f_calls (r_fd r)) /\ size content shift < kMaxFdPosition.
  (** What holds even while the buffer is being changed *)
  Record raw (r : reader) : Prop := {
    v_fd : f_content (r_fd r) = content; v_max : zlen content <= kMaxFdPosition; v_lim : zlen (r_buf r) <= r_limit_pos r <= kMaxFdPosition;
    v_off : 0 <= r_limit_pos r + shift <= zlen content;
    v_fpos : ok r = true -> r_independent r = false -> f_pos (r_fd r) = r_limit_pos r + shift;
    v_ind : r_independent r = true -> shift = 0; v_rand : r_random r = true -> shift = 0;
    v_sizer : read_sizer_ok (r_sizer r); v_exact : exact_size r = None \/ exact_size r = Some (size content shift) }.
  Record inv (r : reader) : Prop := {
    i_raw : raw r; i_cur : 0 <= r_cur r <= zlen (r_buf r); i_off : zlen (r_buf r) <= r_limit_pos r + shift;
    i_buf : r_buf r = zslice (r_limit_pos r + shift - zlen (r_buf r)) (zlen (r_buf r)) content;
    i_base : rs_base_pos (r_sizer r) <= r_limit_pos r - zlen (r_buf r) }.
  (** What never changes *)
  Record frame (r r' : reader) : Prop := {
    fr_ind : r_independent r' = r_independent r; fr_rand : r_random r' = r_random r; fr_grow : r_growing r' = r_growing r; fr_own : r_owning r' = r_owning r;
    fr_open : r_open r' = r_open r; fr_rel : reliable r -> reliable r'; fr_ok : ok r' = true -> ok r = true;
    fr_exact : exact_size r <> None -> exact_size r' = exact_size r; fr_fdpos : r_independent r = true -> f_pos (r_fd r') = f_pos (r_fd r) }.
  Lemma frame_refl r : frame r r.
  Proof. constructor; auto. Qed.
  Lemma frame_trans a b c : frame a b -> frame b c -> frame a c.
  Proof.
    intros [A1 A2 A3 A4 A5 A6 A7 A8 A9] [B1 B2 B3 B4 B5 B6 B7 B8 B9]. constructor; try congruence; auto.
    - intros E. specialize (A8 E). rewrite B8 by congruence. exact A8.
    - intros E. rewrite B9 by congruence. exact (A9 E).
  Qed.
  Definition live (r r' : reader) : Prop := reliable r -> ok r = true -> ok r' = true.
  Lemma live_trans a b c : frame a b -> live a b -> live b c -> live a c.
  Proof. intros F A B R O. exact (B (fr_rel _ _ F R) (A R O)). Qed.

  Lemma zslice_app p n m (l : list Z) : 0 <= p -> 0 <= n -> 0 <= m -> zslice p n l ++ zslice (p + n) m l = zslice p (n + m) l.
  Proof.
    intros P N Mm. unfold zslice. replace (zdrop (p + n) l) with (zdrop n (zdrop p l)) by (rewrite zdrop_zdrop by lia; f_equal; lia).
    rewrite <- ztake_split by lia. reflexivity.
  Qed.
  Lemma zlen_zslice p n (l : list Z) : 0 <= p -> 0 <= n -> p + n <= zlen l -> zlen (zslice p n l) = n.
  Proof. intros P N L. unfold zslice. rewrite zlen_ztake, zlen_zdrop. lia. Qed.
  Lemma zlen_zslice_le p n (l : list Z) : 0 <= p -> 0 <= n -> p <= zlen l -> zlen (zslice p n l) = Z.min n (zlen l - p).
  Proof. intros P N L. unfold zslice. rewrite zlen_ztake, zlen_zdrop. lia. Qed.
  Lemma zslice_zslice p n q m (l : list Z) : 0 <= p -> 0 <= q -> q + m <= n -> zslice q m (zslice p n l) = zslice (p + q) m l.
  Proof.
    intros P Q L. unfold zslice. rewrite zdrop_ztake by lia. rewrite zdrop_zdrop by lia. rewrite ztake_ztake. f_equal; [lia|]. f_equal. lia.
  Qed.

  Lemma next_call_spec f n f' : next_call f = (n, f') -> f_content f' = f_content f /\ f_pos f' = f_pos f /\ f_append f' = f_append f /\
    (Forall (fun n => 0 < n) (f_calls f) -> 0 < n /\ Forall (fun n => 0 < n) (f_calls f')).
  Proof.
    unfold next_call. destruct (f_calls f) as [|x xs] eqn:E; intros H; injection H as <- <-; cbn; rewrite ?E; repeat split; auto.
    - inversion H; assumption.
    - inversion H; assumption.
  Qed.
  Lemma sys_read_spec at_pos length f d f' : 0 < length -> 0 <= match at_pos with Some p => p | None => f_pos f end <= zlen (f_content f) ->
    sys_read at_pos length f = (d, f') ->
    let p := match at_pos with Some p => p | None => f_pos f end in
    f_content f' = f_content f /\ (Forall (fun n => 0 < n) (f_calls f) -> Forall (fun n => 0 < n) (f_calls f') /\ d <> None) /\
    match d with
    | None => f_pos f' = f_pos f
    | Some data => data = zslice p (zlen data) (f_content f) /\ zlen data <= length /\ p + zlen data <= zlen (f_content f) /\ (zlen data = 0 -> p = zlen (f_content f)) /\
        f_pos f' = match at_pos with Some _ => f_pos f | None => p + zlen data end
    end.
  Proof.
    intros L P E p. unfold sys_read in E. destruct (next_call f) as [n g] eqn:N. destruct (next_call_spec _ _ _ N) as (C & FP & _ & CS).
    rewrite FP in E. fold p in E. rewrite C in E. fold p in P. clearbody p.
    destruct (n <=? 0) eqn:Z0.
    - injection E as <- <-. split; [exact C|]. split; [|exact FP]. intros F. destruct (CS F). lia.
    - injection E as <- <-. cbn [f_content f_calls f_pos]. split; [exact C || reflexivity|]. split; [intros F; destruct (CS F); split; [assumption|discriminate]|].
      rewrite zlen_zslice_le by lia. set (k := Z.min (Z.min length n) (zlen (f_content f) - p)).
      split. { unfold zslice. unfold k. rewrite (Z.min_comm (Z.min length n)). rewrite <- (ztake_ztake (zlen (f_content f) - p) (Z.min length n)).
        rewrite (ztake_all (zlen (f_content f) - p)); [reflexivity|]. rewrite zlen_ztake, zlen_zdrop. lia. }
      unfold k. repeat split; try lia.
  Qed.

  Lemma Fail_ok r : raw r -> wp Fail r (fun b r' => b = false /\ raw r' /\ ok r' = false /\ frame r r' /\ r_buf r' = r_buf r /\ r_cur r' = r_cur r /\ r_limit_pos r' = r_limit_pos r /\ r_sizer r' = r_sizer r).
  Proof.
    intros [A1 A2 A3 A4 A5 A6 A7 A8 A9]. unfold Fail. gt. destruct (r_failed r) eqn:F.
    - apply wp_ret. assert (ok r = false) by (unfold ok; rewrite F; destruct (r_open r); reflexivity). repeat (split; [auto || (constructor; auto)|]); auto.
    - assert (OKF : ok (set_state true (r_open r) r) = false) by (unfold ok; cbn; destruct (r_open r); reflexivity).
      md. destruct (r_open r) eqn:O.
      + bnd. bnd. unfold get_pos. gt. ast; [cbn [set_state r_buf r_limit_pos]; lia|]. apply wp_ret. apply wp_ret. apply wp_ret.
        split; [reflexivity|]. split; [constructor; auto; intros; congruence|]. split; [exact OKF|]. split; [|repeat split; reflexivity].
        constructor; rcbn; auto; try congruence.
      + bnd. apply wp_ret. apply wp_ret.
        split; [reflexivity|]. split; [constructor; auto; intros; congruence|]. split; [exact OKF|]. split; [|repeat split; reflexivity].
        constructor; rcbn; auto; try congruence.
  Qed.

  (** What ReadInternal() does, with the buffer not touched *)
  Record raw_read (min_length max_length : Z) (r : reader) (b : bool) (data : list Z) (r' : reader) : Prop := {
    rr_raw : raw r'; rr_frame : frame r r'; rr_data : data = zslice (r_limit_pos r + shift) (zlen data) content;
    rr_pos : r_limit_pos r' = r_limit_pos r + zlen data; rr_max : zlen data <= max_length;
    rr_len : if b then min_length <= zlen data /\ ok r' = true else zlen data < min_length /\ (ok r' = true -> r_limit_pos r' = size content shift);
    rr_live : live r r'; rr_buf : r_buf r' = r_buf r; rr_cur : r_cur r' = r_cur r; rr_base : rs_base_pos (r_sizer r') = rs_base_pos (r_sizer r) }.
  Lemma read_loop_ok : forall fuel min_length max_length r, raw r -> ok r = true -> 0 < min_length <= max_length ->
    zlen content - (r_limit_pos r + shift) < Z.of_nat fuel ->
    wp (read_loop fuel min_length max_length) r (fun x r' => raw_read min_length max_length r (fst x) (snd x) r').
  Proof.
    induction fuel as [|fuel IH]; intros mi ma r R O L F; [pose proof (v_off r R); lia|]. cbn [read_loop]. gt.
    destruct (kMaxFdPosition <=? r_limit_pos r) eqn:K.
    { bnd. apply (wp_conseq _ _ _ _ (Fail_ok r R)). intros b r' (-> & R' & O' & FR & B & C & P & SZ). apply wp_ret. cbn [fst snd]. change (zlen (@nil Z)) with 0.
      constructor; auto; try (change (zlen (@nil Z)) with 0; lia); try congruence.
      - intros [_ RL] _. pose proof (v_lim r R). pose proof (v_off r R). unfold size in RL. lia. }
    pose proof (v_lim r R) as VL. pose proof (v_off r R) as VO. pose proof (zlen_nonneg (r_buf r)) as ZB.
    set (len := Z.min (Z.min (Z.min ma (kMaxFdPosition - r_limit_pos r)) (2 ^ 62)) (2 ^ 30)). assert (LEN : 0 < len <= ma /\ len <= kMaxFdPosition - r_limit_pos r) by (unfold len; lia). clearbody len.
    bnd. apply wp_syscall. intros d f' E.
    assert (PP : match (if r_independent r then Some (r_limit_pos r) else None) with Some p => p | None => f_pos (r_fd r) end = r_limit_pos r + shift).
    { destruct (r_independent r) eqn:IN; [rewrite (v_ind r R IN); lia|exact (v_fpos r R O IN)]. }
    apply sys_read_spec in E; [|lia|rewrite PP, (v_fd r R); lia]. cbn zeta in E. rewrite PP, (v_fd r R) in E. destruct E as (C & CS & E).
    assert (FRM : frame r (set_fd f' r)). { constructor; auto; [intros [RL1 RL2]; split; [exact (proj1 (CS RL1))|exact RL2]|]. intros IN. rcbn. rewrite IN in E. destruct d; [apply E|exact E]. }
    destruct d as [data|].
    - destruct E as (E1 & E2 & E3 & E4 & E5).
      assert (R1 : forall k, k = zlen data -> raw (set_limit_pos (r_limit_pos r + k) (set_fd f' r))).
      { intros k ->. pose proof (zlen_nonneg data). constructor; rcbn; try apply R; try lia; try assumption. }
      destruct data as [|x xs].
      + specialize (E4 eq_refl). bnd.
        assert (RR : forall r', r' = (if r_growing r then set_fd f' r else set_sizer (rs_set_exact_size (Some (r_limit_pos r)) (r_sizer r)) (set_fd f' r)) ->
          raw_read mi ma r false [] r').
        { intros r' ->. pose proof (R1 0 eq_refl) as R2. destruct R2 as [Q1 Q2 Q3 Q4 Q5 Q6 Q7 Q8 Q9]. rcbn_in Q1. rcbn_in Q2. rcbn_in Q3. rcbn_in Q4. rcbn_in Q5. rcbn_in Q6. rcbn_in Q7. rcbn_in Q8. rcbn_in Q9. rewrite Z.add_0_r in *.
          assert (SE : size content shift = r_limit_pos r) by (unfold size; lia).
          assert (LB : if false then mi <= zlen (@nil Z) /\ ok (set_fd f' r) = true else zlen (@nil Z) < mi /\ (ok (set_fd f' r) = true -> r_limit_pos r = size content shift)).
          { change (zlen (@nil Z)) with 0. split; [lia|]. intros _. congruence. }
          destruct (r_growing r) eqn:GR.
          - constructor; [constructor; auto|exact FRM|reflexivity|change (zlen (@nil Z)) with 0; rcbn; lia|change (zlen (@nil Z)) with 0; lia|exact LB|intros _ OO; exact OO|reflexivity|reflexivity|reflexivity].
          - constructor; [|  |reflexivity|change (zlen (@nil Z)) with 0; rcbn; lia|change (zlen (@nil Z)) with 0; lia|exact LB|intros _ OO; exact OO|reflexivity|reflexivity|reflexivity].
            + constructor; auto. right. unfold exact_size. rcbn. congruence.
            + constructor; rcbn; auto; try apply FRM. unfold exact_size. rcbn. intros NE. destruct (v_exact r R) as [X|X]; unfold exact_size in X; congruence. }
        destruct (r_growing r) eqn:GR.
        * apply wp_ret. apply wp_ret. apply RR. reflexivity.
        * apply wp_modify. apply wp_ret. apply RR. reflexivity.
      + remember (x :: xs) as data eqn:DE. assert (DL : 0 < zlen data) by (subst data; rewrite zlen_cons; pose proof (zlen_nonneg xs); lia).
        ast; [lia|]. unfold move_limit_pos. bnd. gt. ast; [rcbn; pose proof kmax; lia|]. apply wp_modify.
        specialize (R1 (zlen data) eq_refl). set (r1 := set_limit_pos (r_limit_pos (set_fd f' r) + zlen data) (set_fd f' r)). change (raw r1) in R1.
        assert (FR1 : frame r r1) by (constructor; rcbn; auto; apply FRM).
        assert (L1 : r_limit_pos r1 = r_limit_pos r + zlen data) by reflexivity.
        assert (O1 : ok r1 = true) by exact O. assert (B1 : r_buf r1 = r_buf r) by reflexivity. assert (C1 : r_cur r1 = r_cur r) by reflexivity. assert (S1 : r_sizer r1 = r_sizer r) by reflexivity.
        clearbody r1.
        destruct (mi <=? zlen data) eqn:MI.
        * apply wp_ret. cbn [fst snd]. constructor; auto; try lia; try congruence; intros _ _; exact O1.
        * bnd. eapply wp_conseq; [apply IH; [exact R1|exact O1|lia|lia]|]. intros [b d2] r2 [H1 H2 H3 H4 H5 H6 H7 H8 H9 H10]. cbn [fst snd] in *. apply wp_ret. cbn [fst snd].
          constructor; cbn [fst snd]; auto.
          -- exact (frame_trans _ _ _ FR1 H2).
          -- rewrite E1 at 1. rewrite H3 at 1. rewrite zlen_app. replace (r_limit_pos r1 + shift) with (r_limit_pos r + shift + zlen data) by lia. apply zslice_app; try lia. apply zlen_nonneg.
          -- rewrite zlen_app. lia.
          -- rewrite zlen_app. lia.
          -- rewrite zlen_app. destruct b; lia.
          -- intros RL _. exact (H7 (fr_rel _ _ FR1 RL) O1).
          -- congruence.
          -- congruence.
          -- congruence.
    - assert (R1 : raw (set_fd f' r) \/ True) by (right; exact Logic.I). clear R1.
      bnd. unfold Fail. gt.
      assert (NF : r_failed r = false) by (unfold ok in O; destruct (r_open r), (r_failed r); cbn in O; congruence).
      assert (OP : r_open r = true) by (unfold ok in O; destruct (r_open r), (r_failed r); cbn in O; congruence).
      cbn [set_fd r_failed]. rewrite NF. md. cbn [r_open set_fd]. rewrite OP. bnd. bnd. unfold get_pos. gt. ast; [cbn; lia|]. apply wp_ret. apply wp_ret. apply wp_ret. apply wp_ret. cbn [fst snd].
      constructor; try reflexivity; try (change (zlen (@nil Z)) with 0; cbn; lia).
      + constructor; rcbn; try apply R; try assumption. intros OO. discriminate OO.
      + constructor; rcbn; auto; try apply FRM.
      + intros [RL1 _] _. destruct (CS RL1) as [_ X]. congruence.
  Qed.
  Lemma ReadInternal_ok min_length max_length r : raw r -> ok r = true -> 0 < min_length <= max_length ->
    wp (ReadInternal min_length max_length) r (fun x r' => raw_read min_length max_length r (fst x) (snd x) r').
  Proof.
    intros R O L. unfold ReadInternal. gt. ast; [rewrite O; lia|]. apply read_loop_ok; auto. rewrite (v_fd r R). pose proof (v_off r R). rewrite Nat2Z.inj_succ. change (Z.of_nat (length content)) with (zlen content). lia.
  Qed.
End S.
