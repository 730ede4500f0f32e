(** What the functions of the buffered reader do. *)
From Verif Require Import Base.Bytes Model.BufferSizer Proof.BufferSizerProof.
From Verif Require Import Model.BufferedReader Spec.BufferedReaderSpec Proof.ReaderLemmas.
Import BufferedWriter(fd, f_content, f_pos, f_append, f_calls, Build_fd, next_call, kMaxFdPosition, sys_seek, sys_size, sys_tell, sys_other).

Section S.
  Variables (content : list Z) (shift : Z).
  Notation raw := (raw content shift). Notation inv := (inv content shift). Notation frame := (frame content shift). Notation live := (live content shift).
  Notation size := (size content shift).

  Lemma pos_bounds r : inv r -> 0 <= available r /\ 0 <= pos r /\ 0 <= pos r + shift /\ pos r + available r = r_limit_pos r /\ r_limit_pos r <= size /\ r_limit_pos r <= kMaxFdPosition.
  Proof.
    intros [R C O B BS]. pose proof (v_lim _ _ _ R). pose proof (v_off _ _ _ R). unfold pos, available, BufferedReaderSpec.size. lia.
  Qed.
  Lemma get_pos_ok r (Q : Z -> reader -> Prop) : inv r -> Q (pos r) r -> wp get_pos r Q.
  Proof. intros I1 H. unfold get_pos. gt. ast; [pose proof (v_lim _ _ _ (i_raw _ _ _ I1)); lia|]. apply wp_ret. exact H. Qed.
  Lemma get_start_pos_ok r (Q : Z -> reader -> Prop) : inv r -> Q (r_limit_pos r - zlen (r_buf r)) r -> wp get_start_pos r Q.
  Proof. intros I1 H. unfold get_start_pos. gt. ast; [pose proof (v_lim _ _ _ (i_raw _ _ _ I1)); lia|]. apply wp_ret. exact H. Qed.

  Lemma inv_set_cur r c : inv r -> 0 <= c <= zlen (r_buf r) -> inv (set_buf (r_buf r) c r).
  Proof. intros [R C O B BS] H. constructor; rcbn; auto. destruct R. constructor; auto. Qed.
  Lemma inv_empty r : inv r -> inv (set_buf [] 0 r).
  Proof.
    intros [R C O B BS]. pose proof (v_lim _ _ _ R). pose proof (v_off _ _ _ R). pose proof (zlen_nonneg (r_buf r)).
    constructor; rcbn; change (zlen (@nil Z)) with 0; try lia; try reflexivity. destruct R. constructor; rcbn; auto. change (zlen (@nil Z)) with 0. lia.
  Qed.
  Lemma frame_set_buf r b c : frame r (set_buf b c r).
  Proof. constructor; auto. Qed.
  Lemma live_refl r r' : ok r' = ok r -> live r r'.
  Proof. intros E _ O. congruence. Qed.

  (** ** Reading from the buffer *)
  Record consumes (data : list Z) (r r' : reader) : Prop := {
    c_inv : inv r'; c_frame : frame r r'; c_live : live r r'; c_reads : reads content shift data (pos r) (pos r') }.
  Lemma consumes_nil r : inv r -> consumes [] r r.
  Proof. intros I1. constructor; auto; [apply frame_refl|intros _ O; exact O|]. split; [reflexivity|]. change (zlen (@nil Z)) with 0. lia. Qed.
  Lemma reads_app d1 d2 p p1 p2 : 0 <= p + shift -> reads content shift d1 p p1 -> reads content shift d2 p1 p2 -> reads content shift (d1 ++ d2) p p2.
  Proof.
    intros P [A1 A2] [B1 B2]. split.
    - rewrite A1 at 1. rewrite B1 at 1. rewrite zlen_app. unfold piece. replace (p1 + shift) with (p + shift + zlen d1) by lia. apply zslice_app; try lia; apply zlen_nonneg.
    - rewrite zlen_app. lia.
  Qed.
  Lemma consumes_app d1 d2 a b c : inv a -> consumes d1 a b -> consumes d2 b c -> consumes (d1 ++ d2) a c.
  Proof.
    intros I1 [A1 A2 A3 A4] [B1 B2 B3 B4]. constructor; auto.
    - exact (frame_trans _ _ _ _ _ A2 B2).
    - exact (live_trans _ _ _ _ _ A2 A3 B3).
    - destruct (pos_bounds a I1) as (_ & _ & P & _). exact (reads_app _ _ _ _ _ P A4 B4).
  Qed.
  Lemma consumes_same d a b c : inv a -> consumes d a b -> consumes [] b c -> consumes d a c.
  Proof. intros I1 A B. rewrite <- (app_nil_r d). exact (consumes_app _ _ _ _ _ I1 A B). Qed.
  Lemma move_cursor_ok n r (Q : unit -> reader -> Prop) : 0 <= n <= available r -> Q tt (set_buf (r_buf r) (r_cur r + n) r) -> wp (move_cursor n) r Q.
  Proof. intros N H. unfold move_cursor. gt. ast; [lia|]. apply wp_modify. exact H. Qed.
  Lemma take_ok n r (Q : list Z -> reader -> Prop) : inv r -> 0 <= n <= available r ->
    (forall d r', zlen d = n -> consumes d r r' -> ok r' = ok r -> r_limit_pos r' = r_limit_pos r -> available r' = available r - n -> r_sizer r' = r_sizer r ->
      r_buf r' = r_buf r -> Q d r') -> wp (take n) r Q.
  Proof.
    intros I1 N H. unfold take. gt. bnd. apply move_cursor_ok; [exact N|]. apply wp_ret. pose proof (i_cur _ _ _ I1) as C. pose proof (i_off _ _ _ I1) as OF. unfold available in N.
    assert (L : zlen (zslice (r_cur r) n (r_buf r)) = n) by (apply zlen_zslice; lia).
    apply H; try reflexivity; try (unfold available; rcbn; lia).
    constructor.
    - apply inv_set_cur; [exact I1|lia].
    - apply frame_set_buf.
    - apply live_refl. reflexivity.
    - rewrite (i_buf _ _ _ I1) at 1. split; [|rewrite <- (i_buf _ _ _ I1), L; unfold pos, available; rcbn; lia].
      rewrite <- (i_buf _ _ _ I1) at 2. rewrite L. rewrite zslice_zslice by lia. unfold piece, pos, available. f_equal. lia.
  Qed.

  (** ** Filling the buffer *)
  Lemma fill_ok mi bl kept ci r : raw r -> ok r = true -> 0 < mi <= bl -> 0 <= ci <= zlen kept -> zlen kept <= r_limit_pos r -> zlen kept <= r_limit_pos r + shift ->
    kept = zslice (r_limit_pos r + shift - zlen kept) (zlen kept) content -> rs_base_pos (r_sizer r) <= r_limit_pos r - zlen kept ->
    wp (fill mi bl kept ci) r (fun b r' => inv r' /\ frame r r' /\ live r r' /\ r_cur r' = ci /\ exists n, 0 <= n <= bl /\ r_limit_pos r' = r_limit_pos r + n /\
      zlen (r_buf r') = zlen kept + n /\ if b then mi <= n /\ ok r' = true else n < mi /\ (ok r' = true -> r_limit_pos r' = size)).
  Proof.
    intros R O M1 C K1 K2 K3 BS. unfold fill. gt. bnd. eapply wp_conseq; [apply (ReadInternal_ok content shift); assumption|]. intros [b d] r' [H1 H2 H3 H4 H5 H6 H7 H8 H9 H10].
    cbn [fst snd] in *. pose proof (zlen_nonneg d) as ZD. gt. ast; [lia|]. ast; [lia|]. ast; [destruct b; lia|]. ast; [lia|]. ast; [rewrite zlen_app; lia|]. md. apply wp_ret.
    split.
    { constructor; rcbn.
      - destruct H1. constructor; rcbn; auto. rewrite zlen_app. lia.
      - rewrite zlen_app. lia.
      - rewrite zlen_app. lia.
      - rewrite K3 at 1. rewrite H3 at 1. rewrite zlen_app. replace (r_limit_pos r' + shift - (zlen kept + zlen d)) with (r_limit_pos r + shift - zlen kept) by lia.
        pose proof (zlen_nonneg kept). replace (r_limit_pos r + shift) with (r_limit_pos r + shift - zlen kept + zlen kept) at 2 by lia. apply zslice_app; lia.
      - rewrite zlen_app. lia. }
    split; [exact (frame_trans _ _ _ _ _ H2 (frame_set_buf _ _ _))|]. split; [exact H7|]. split; [reflexivity|]. exists (zlen d). rcbn. rewrite zlen_app.
    split; [lia|]. split; [exact H4|]. split; [lia|]. exact H6.
  Qed.
  Lemma room_ok n r (Q : bool -> reader -> Prop) : (forall b s, (b = true -> n <> 0) -> Q b (set_spaces s r)) -> wp (AppendBufferIfExisting n) r Q.
  Proof.
    intros H. unfold AppendBufferIfExisting. gt. destruct (r_spaces r) as [|b s].
    - apply wp_ret. specialize (H false (r_spaces r) ltac:(discriminate)). destruct r. exact H.
    - md. apply wp_ret. apply H. destruct b; cbn; lia.
  Qed.
  Lemma raw_spaces s r : raw r -> raw (set_spaces s r).
  Proof. intros []. constructor; auto. Qed.
  Lemma inv_spaces s r : inv r -> inv (set_spaces s r).
  Proof. intros []. constructor; auto. apply raw_spaces. assumption. Qed.
  Lemma frame_spaces s r r' : frame (set_spaces s r) r' -> frame r r'.
  Proof. intros []. constructor; auto. Qed.
  Lemma kept_ok r : inv r -> let kept := zdrop (r_cur r) (r_buf r) in zlen kept = available r /\ kept = zslice (r_limit_pos r + shift - zlen kept) (zlen kept) content.
  Proof.
    intros I1 kept. pose proof (i_cur _ _ _ I1) as C. pose proof (i_off _ _ _ I1).
    assert (L : zlen kept = available r) by (unfold kept, available; rewrite zlen_zdrop; lia). split; [exact L|]. rewrite L. unfold kept. rewrite (i_buf _ _ _ I1) at 1. unfold zslice.
    rewrite zdrop_ztake by lia. rewrite zdrop_zdrop by lia. unfold available. f_equal. f_equal. lia.
  Qed.
  (** Reading more to the buffer; [n] is the length which the buffer gets *)
  Lemma refill_ok room mi bl r : inv r -> ok r = true -> 0 < mi <= bl ->
    wp (if room : bool then fill mi bl (r_buf r) (r_cur r) else fill mi bl (zdrop (r_cur r) (r_buf r)) 0) r (fun b r' => inv r' /\ frame r r' /\ live r r' /\
      exists n, 0 <= n <= bl /\ r_limit_pos r' = r_limit_pos r + n /\ available r' = available r + n /\ if b then mi <= n /\ ok r' = true else n < mi /\ (ok r' = true -> r_limit_pos r' = size)).
  Proof.
    intros I1 O M1. pose proof (i_cur _ _ _ I1) as C. pose proof (i_off _ _ _ I1) as OF. pose proof (v_lim _ _ _ (i_raw _ _ _ I1)). pose proof (i_base _ _ _ I1).
    destruct room.
    - eapply wp_conseq; [apply fill_ok; auto; try lia; try apply I1|]. cbn beta. intros b r' (A1 & A2 & A3 & A4 & n & A5 & A6 & A7 & A8). split; [exact A1|]. split; [exact A2|]. split; [exact A3|].
      exists n. unfold available. split; [lia|]. split; [lia|]. split; [lia|]. exact A8.
    - destruct (kept_ok r I1) as [K1 K2]. cbv zeta in *. unfold available in K1.
      eapply wp_conseq; [apply fill_ok; auto; try lia; try apply I1|]. cbn beta. intros b r' (A1 & A2 & A3 & A4 & n & A5 & A6 & A7 & A8). split; [exact A1|]. split; [exact A2|]. split; [exact A3|].
      exists n. unfold available. split; [lia|]. split; [lia|]. split; [lia|]. exact A8.
  Qed.
  Lemma PullSlow_ok min rec r : inv r -> available r < min <= 2 ^ 63 -> 0 <= rec ->
    wp (PullSlow min rec) r (fun b r' => consumes [] r r' /\ b = (min <=? available r') /\ available r <= available r' /\ r_limit_pos r <= r_limit_pos r' /\
      (b = true -> ok r = true) /\ (b = false -> ok r' = true -> r_limit_pos r' = size)).
  Proof.
    intros I1 M1 RC. pose proof (pos_bounds r I1) as (PB1 & PB2 & PB3 & PB4 & PB5 & PB6). unfold PullSlow. gt. ast; [lia|]. destruct (ok r) eqn:O; cbn [negb].
    2:{ apply wp_ret. split; [exact (consumes_nil r I1)|]. split; [lia|]. split; [lia|]. split; [lia|]. split; [discriminate|congruence]. }
    pose proof (i_raw _ _ _ I1) as R. pose proof (i_base _ _ _ I1) as BS. pose proof (zlen_nonneg (r_buf r)).
    destruct (rs_BufferLength_ok (r_sizer r) (r_limit_pos r) (min - available r) (SaturatingSub rec (available r))) as (n & EN & N0 & N1);
      [apply R|lia|lia|unfold SaturatingSub; lia|].
    bnd. apply (wp_of_option _ n); [exact EN|]. clear EN.
    assert (NS : n < min - available r -> size - r_limit_pos r <= n).
    { intros NL. destruct (v_exact _ _ _ R) as [X|X]; unfold exact_size in X; rewrite X in N1; lia. }
    clear N1. destruct (n =? 0) eqn:NZ.
    { apply wp_ret. split; [exact (consumes_nil r I1)|]. split; [lia|]. split; [lia|]. split; [lia|]. split; [discriminate|]. intros _ _. lia. }
    bnd. apply room_ok. intros room s _. bnd.
    set (mi := if ToleratesReadingAhead r then n else Z.min (min - available r) n). assert (MI : 0 < mi <= n /\ (mi = n \/ min - available r <= mi)) by (unfold mi; destruct (ToleratesReadingAhead r); lia). clearbody mi.
    eapply wp_conseq; [apply (refill_ok room mi n (set_spaces s r)); [apply inv_spaces; exact I1|exact O|lia]|]. cbn beta.
    intros b r' (A1 & A2 & A3 & k & A4 & A5 & A6 & A7). change (available (set_spaces s r)) with (available r) in A6. change (r_limit_pos (set_spaces s r)) with (r_limit_pos r) in A5.
    gt. apply wp_ret. pose proof (pos_bounds r' A1) as (PB1' & PB2' & PB3' & PB4' & PB5' & PB6').
    split.
    { constructor; [exact A1|exact (frame_spaces _ _ _ A2)|exact A3|]. split; [reflexivity|]. change (zlen (@nil Z)) with 0. lia. }
    split; [reflexivity|]. split; [lia|]. split; [lia|]. split; [reflexivity|]. intros NE OK. destruct b; [|exact (proj2 A7 OK)]. destruct A7 as [A7 _]. lia.
  Qed.
  Lemma Pull_ok min rec r : inv r -> 0 <= min <= 2 ^ 63 -> 0 <= rec ->
    wp (Pull min rec) r (fun b r' => consumes [] r r' /\ b = (min <=? available r') /\ (b = false -> ok r' = true -> r_limit_pos r' = size)).
  Proof.
    intros I1 M1 RC. unfold Pull. gt. destruct (min <=? available r) eqn:E.
    - apply wp_ret. split; [exact (consumes_nil r I1)|]. split; [lia|discriminate].
    - bnd. eapply wp_conseq; [apply PullSlow_ok; auto; lia|]. cbn beta. intros b r' (A1 & A2 & A3 & A4 & A5 & A6). gt. destruct b; cbn [negb].
      + ast; [lia|]. apply wp_ret. auto.
      + apply wp_ret. auto.
  Qed.

  (** ** Reading *)
  (** The result of reading [n] bytes *)
  Definition read_post (n : Z) (r : reader) (x : bool * list Z) (r' : reader) : Prop :=
    consumes (snd x) r r' /\ if fst x then zlen (snd x) = n else zlen (snd x) < n /\ (ok r' = true -> pos r' = size).
  Lemma read_slow_loop_ok : forall fuel n r, inv r -> available r < n -> size - r_limit_pos r < Z.of_nat fuel ->
    wp (read_slow_loop fuel n) r (read_post n r).
  Proof.
    induction fuel as [|fuel IH]; intros n r I1 N F. { destruct (pos_bounds r I1) as (_ & _ & _ & _ & B & _). lia. }
    cbn [read_slow_loop]. gt. pose proof (pos_bounds r I1) as (PB1 & PB2 & PB3 & PB4 & PB5 & PB6).
    bnd. apply take_ok; [exact I1|lia|]. intros d r1 D1 C1 O1 L1 V1 _ _. bnd. pose proof (c_inv _ _ _ C1) as I2.
    eapply wp_conseq; [apply PullSlow_ok; [exact I2|lia|lia]|]. cbn beta. intros b r2 (A1 & A2 & A3 & A4 & A5 & A6). gt.
    pose proof (c_inv _ _ _ A1) as I3. pose proof (consumes_same _ _ _ _ I1 C1 A1) as C2. pose proof (pos_bounds r2 I3) as (PC1 & PC2 & PC3 & PC4 & PC5 & PC6).
    destruct b; cbn [negb].
    - destruct (available r2 <? n - available r) eqn:V.
      + bnd. pose proof (pos_bounds r1 I2) as (PD1 & PD2 & PD3 & PD4 & PD5 & PD6).
        assert (PP : pos r2 = pos r1). { destruct (c_reads _ _ _ A1) as [_ X]. change (zlen (@nil Z)) with 0 in X. lia. }
        eapply wp_conseq; [apply IH; [exact I3|lia|lia]|]. intros [b d2] r3 [H1 H2]. cbn [fst snd] in *. apply wp_ret. split; cbn [fst snd].
        * exact (consumes_app _ _ _ _ _ I1 C2 H1).
        * rewrite zlen_app. destruct b; lia.
      + bnd. apply take_ok; [exact I3|lia|]. intros d2 r3 D2 C3 O3 L3 V3 _ _. apply wp_ret. split; cbn [fst snd].
        * exact (consumes_app _ _ _ _ _ I1 C2 C3).
        * rewrite zlen_app. lia.
    - apply wp_ret. split; cbn [fst snd]; [exact C2|]. split; [lia|]. intros OK. specialize (A6 eq_refl OK). lia.
  Qed.
  (** Reading directly, with the buffer empty *)
  Lemma direct_ok mi ma r : inv r -> zlen (r_buf r) = 0 -> ok r = true -> 0 < mi <= ma ->
    wp (ReadInternal mi ma) r (fun x r' => consumes (snd x) r r' /\ zlen (snd x) <= ma /\ zlen (r_buf r') = 0 /\ r_limit_pos r' = r_limit_pos r + zlen (snd x) /\
      if fst x then mi <= zlen (snd x) else zlen (snd x) < mi /\ (ok r' = true -> pos r' = size)).
  Proof.
    intros I1 Z0 O M1. eapply wp_conseq; [apply (ReadInternal_ok content shift); [apply I1|exact O|exact M1]|]. intros [b d] r' [H1 H2 H3 H4 H5 H6 H7 H8 H9 H10]. cbn [fst snd] in *.
    pose proof (i_cur _ _ _ I1) as C. pose proof (i_base _ _ _ I1) as BS. pose proof (i_off _ _ _ I1) as OF. pose proof (zlen_nonneg d) as ZD.
    assert (BN : r_buf r = []) by (apply zlen_0_nil; exact Z0).
    assert (P1 : pos r = r_limit_pos r) by (unfold pos, available; lia). assert (P2 : pos r' = r_limit_pos r') by (unfold pos, available; rewrite H8, H9; lia).
    split.
    { constructor; auto.
      - constructor; auto; rewrite H8, BN; change (zlen (@nil Z)) with 0; try lia; try reflexivity.
      - split; [|lia]. unfold piece. rewrite P1. exact H3. }
    split; [exact H5|]. split; [congruence|]. split; [exact H4|]. rewrite P2. destruct b; [lia|exact H6].
  Qed.
  Lemma up_to_ok n r : inv r -> 0 < n -> match up_to_exact_size n r with None => r_limit_pos r = size | Some m => 0 < m <= n /\ (m < n -> r_limit_pos r + m = size) end.
  Proof.
    intros I1 N. destruct (pos_bounds r I1) as (_ & _ & _ & _ & B & _). unfold up_to_exact_size. destruct (v_exact _ _ _ (i_raw _ _ _ I1)) as [X|X]; rewrite X; [lia|].
    destruct (size <=? r_limit_pos r) eqn:E; lia.
  Qed.
  Lemma pos_empty r : inv r -> zlen (r_buf r) = 0 -> pos r = r_limit_pos r.
  Proof. intros I1 Z0. pose proof (i_cur _ _ _ I1). unfold pos, available. lia. Qed.
  Lemma consumes_sync d r r' : consumes d r r' -> available r' = 0 -> consumes d r (set_buf [] 0 r').
  Proof.
    intros [A1 A2 A3 [A4 A5]] V. constructor; [exact (inv_empty _ A1)|exact (frame_trans _ _ _ _ _ A2 (frame_set_buf _ _ _))|exact A3|].
    split; [exact A4|]. rewrite <- A5. unfold pos at 2. rewrite V. reflexivity.
  Qed.
  Lemma ReadSlow_ok n r : inv r -> available r < n -> wp (ReadSlow n) r (read_post n r).
  Proof.
    intros I1 N. pose proof (pos_bounds r I1) as (PB1 & PB2 & PB3 & PB4 & PB5 & PB6). unfold ReadSlow. gt. ast; [lia|]. bnd. apply get_pos_ok; [exact I1|].
    pose proof (i_base _ _ _ I1) as BS. pose proof (i_cur _ _ _ I1) as C0. pose proof (v_lim _ _ _ (i_raw _ _ _ I1)) as VL.
    destruct (rs_BufferLength_ok (r_sizer r) (pos r) 0 0) as (bl & EN & N0 & _); [apply I1|unfold pos, available; lia|lia|lia|]. bnd. apply (wp_of_option _ bl); [exact EN|].
    destruct (bl <=? n).
    - bnd. apply take_ok; [exact I1|lia|]. intros d r1 D1 C1 O1 L1 V1 _ _. unfold SyncBuffer. md. gt. pose proof (consumes_sync _ _ _ C1 ltac:(lia)) as C2. pose proof (c_inv _ _ _ C2) as I2.
      assert (P2 : pos (set_buf [] 0 r1) = r_limit_pos r) by (unfold pos, available; rcbn; change (zlen (@nil Z)) with 0; lia).
      assert (L2 : r_limit_pos (set_buf [] 0 r1) = r_limit_pos r) by exact L1.
      change (ok (set_buf [] 0 r1)) with (ok r1). rewrite O1.
      destruct (ok r) eqn:O; cbn [negb].
      + pose proof (up_to_ok (n - available r) _ I2 ltac:(lia)) as UT. destruct (up_to_exact_size (n - available r) (set_buf [] 0 r1)) as [m|].
        * bnd. eapply wp_conseq; [apply direct_ok; [exact I2|reflexivity|exact O1|lia]|]. intros [b d2] r3 (H1 & H2 & H3 & H4 & H5). cbn [fst snd] in *. apply wp_ret. split; cbn [fst snd].
          -- exact (consumes_app _ _ _ _ _ I1 C2 H1).
          -- rewrite zlen_app. destruct b; cbn [andb].
             ++ destruct (n - available r <=? m) eqn:M1; [lia|]. split; [lia|]. intros _. rewrite (pos_empty r3 (c_inv _ _ _ H1) H3). lia.
             ++ lia.
        * apply wp_ret. split; cbn [fst snd]; [exact C2|]. split; [lia|]. intros _. lia.
      + apply wp_ret. split; cbn [fst snd]; [exact C2|]. split; [lia|]. intros OK. change (ok (set_buf [] 0 r1)) with (ok r1) in OK. congruence.
    - apply read_slow_loop_ok; auto. rewrite (v_fd _ _ _ (i_raw _ _ _ I1)). rewrite !Nat2Z.inj_succ. change (Z.of_nat (length content)) with (zlen content). unfold BufferedReaderSpec.size in *.
      pose proof (v_off _ _ _ (i_raw _ _ _ I1)). lia.
  Qed.
  Lemma check_read_ok n m r : inv r -> wp m r (read_post n r) -> wp (check_read n m) r (read_post n r).
  Proof.
    intros I1 H. unfold check_read. bnd. apply get_pos_ok; [exact I1|]. bnd. apply (wp_conseq _ _ _ _ H). intros [b d] r' [H1 H2]. cbn [fst snd] in *.
    destruct (c_reads _ _ _ H1) as [_ P]. pose proof (zlen_nonneg d). bnd. apply get_pos_ok; [exact (c_inv _ _ _ H1)|].
    ast; [destruct b; lia|]. ast; [destruct b; cbn; lia|]. ast; [lia|]. apply wp_ret. split; assumption.
  Qed.
  Lemma Read_ok n r : inv r -> 0 <= n -> wp (Read n) r (read_post n r).
  Proof.
    intros I1 N. unfold Read. gt. destruct (n <=? available r) eqn:E.
    - bnd. apply take_ok; [exact I1|lia|]. intros d r' D C _ _ _ _ _. apply wp_ret. split; cbn [fst snd]; [exact C|exact D].
    - apply check_read_ok; [exact I1|]. apply ReadSlow_ok; [exact I1|lia].
  Qed.
  Lemma ReadView_ok n r : inv r -> 0 <= n <= 2 ^ 63 -> wp (ReadView n) r (read_post n r).
  Proof.
    intros I1 N. unfold ReadView. bnd. eapply wp_conseq; [apply Pull_ok; auto; lia|]. cbn beta. intros b r1 (A1 & A2 & A3). gt. pose proof (c_inv _ _ _ A1) as I2.
    destruct (pos_bounds r1 I2) as (PB1 & PB2 & PB3 & PB4 & PB5 & PB6).
    bnd. apply take_ok; [exact I2|destruct b; lia|]. intros d r2 D C O L V _ _. apply wp_ret. split; cbn [fst snd].
    - exact (consumes_app [] d _ _ _ I1 A1 C).
    - destruct b; [exact D|]. split; [lia|]. intros OK. specialize (A3 eq_refl ltac:(congruence)). destruct (c_reads _ _ _ C) as [_ P]. lia.
  Qed.
  Lemma ReadByte_ok r : inv r -> wp ReadByte r (read_post 1 r).
  Proof.
    intros I1. unfold ReadByte. bnd. eapply wp_conseq; [apply Pull_ok; auto; lia|]. cbn beta. intros b r1 (A1 & A2 & A3). pose proof (c_inv _ _ _ A1) as I2. destruct b; cbn [negb].
    - bnd. apply take_ok; [exact I2|lia|]. intros d r2 D C O L V _ _. apply wp_ret. split; cbn [fst snd]; [exact (consumes_app [] d _ _ _ I1 A1 C)|exact D].
    - apply wp_ret. split; cbn [fst snd]; [exact A1|]. change (zlen (@nil Z)) with 0. split; [lia|]. intros OK. specialize (A3 eq_refl OK). destruct (pos_bounds r1 I2) as (PB1 & PB2 & PB3 & PB4 & PB5 & PB6). lia.
  Qed.
  Lemma read_chain_loop_ok : forall fuel n r, inv r -> 0 <= n -> size - r_limit_pos r + 1 < Z.of_nat fuel -> wp (read_chain_loop fuel n) r (read_post n r).
  Proof.
    induction fuel as [|fuel IH]; intros n r I1 N F. { destruct (pos_bounds r I1) as (_ & _ & _ & _ & B & _). lia. }
    cbn [read_chain_loop]. gt. pose proof (pos_bounds r I1) as (PB1 & PB2 & PB3 & PB4 & PB5 & PB6). destruct (n <=? available r) eqn:NA.
    { bnd. apply take_ok; [exact I1|lia|]. intros d r' D C _ _ _ _ _. apply wp_ret. split; cbn [fst snd]; [exact C|exact D]. }
    destruct (ok r) eqn:O; cbn [negb].
    2:{ bnd. apply take_ok; [exact I1|lia|]. intros d r' D C OE _ _ _ _. apply wp_ret. split; cbn [fst snd]; [exact C|]. split; [lia|congruence]. }
    pose proof (i_raw _ _ _ I1) as R. pose proof (i_base _ _ _ I1) as BS. pose proof (zlen_nonneg (r_buf r)).
    destruct (rs_BufferLength_ok (r_sizer r) (r_limit_pos r) 1 (n - available r)) as (bl & EN & N0 & N1); [apply R|lia|lia|lia|].
    bnd. apply (wp_of_option _ bl); [exact EN|]. clear EN.
    assert (NS : bl = 0 -> r_limit_pos r = size).
    { intros NL. destruct (v_exact _ _ _ R) as [X|X]; unfold exact_size in X; rewrite X in N1; lia. }
    clear N1. bnd. apply room_ok. intros room s RM. pose proof (inv_spaces s r I1) as IS.
    destruct (negb room && (bl =? 0)) eqn:NR.
    { assert (B0 : bl = 0) by (destruct room; cbn in NR; lia). specialize (NS B0).
      bnd. apply take_ok; [exact IS|change (available (set_spaces s r)) with (available r); lia|]. intros d r1 D C OE L V _ _. change (available (set_spaces s r)) with (available r) in V.
      unfold SyncBuffer. md. apply wp_ret. split; cbn [fst snd].
      - apply consumes_sync in C; [|lia]. destruct C as [Q1 Q2 Q3 Q4]. constructor; auto. exact (frame_spaces _ _ _ Q2).
      - split; [lia|]. intros _. change (r_limit_pos r1 = r_limit_pos r) in L. unfold pos, available. rcbn. change (zlen (@nil Z)) with 0. lia. }
    assert (BP : 0 < bl) by (destruct room; [specialize (RM eq_refl); lia|cbn in NR; lia]).
    set (data := if room then [] else zdrop (r_cur r) (r_buf r)). set (n1 := n - zlen data).
    set (av := if room then available r else 0). set (mi := if ToleratesReadingAhead r then bl else Z.min (n1 - av) bl).
    destruct (kept_ok r I1) as [K1 K2]. cbv zeta in K1, K2.
    assert (N1A : n1 - av = n - available r) by (unfold n1, av, data; destruct room; [change (zlen (@nil Z)) with 0; lia|lia]).
    assert (MI : 0 < mi <= bl) by (unfold mi; destruct (ToleratesReadingAhead r); lia).
    (** the bytes which are moved to the destination first *)
    assert (FILL : wp (if room then fill mi bl (r_buf r) (r_cur r) else fill mi bl [] 0) (set_spaces s r) (fun b r' => consumes data r r' /\ r_limit_pos r <= r_limit_pos r' /\
      (b = true -> r_limit_pos r < r_limit_pos r') /\ (b = false -> ok r' = true -> r_limit_pos r' = size))).
    { pose proof (i_cur _ _ _ I1) as C. pose proof (i_off _ _ _ I1) as OF. pose proof (v_lim _ _ _ R) as VL. pose proof (v_off _ _ _ R).
      destruct room.
      - eapply wp_conseq; [apply (refill_ok true mi bl (set_spaces s r) IS O MI)|]. cbn beta. intros b r' (A1 & A2 & A3 & k & A4 & A5 & A6 & A7).
        change (r_limit_pos (set_spaces s r)) with (r_limit_pos r) in A5. change (available (set_spaces s r)) with (available r) in A6.
        split; [|split; [lia|]; split; [intros ->; lia|intros ->; exact (proj2 A7)]].
        constructor; [exact A1|exact (frame_spaces _ _ _ A2)|exact A3|]. unfold data. split; [reflexivity|]. change (zlen (@nil Z)) with 0. unfold pos. lia.
      - eapply wp_conseq; [apply (fill_ok mi bl [] 0 (set_spaces s r) (raw_spaces s r R) O MI); rcbn; change (zlen (@nil Z)) with 0; try lia; reflexivity|]. cbn beta.
        intros b r' (A1 & A2 & A3 & A4 & k & A5 & A6 & A7 & A8). change (r_limit_pos (set_spaces s r)) with (r_limit_pos r) in A6. change (zlen (@nil Z)) with 0 in A7.
        split; [|split; [lia|]; split; [intros ->; lia|intros ->; exact (proj2 A8)]].
        constructor; [exact A1|exact (frame_spaces _ _ _ A2)|exact A3|]. unfold data. split.
        + unfold piece. rewrite K2 at 1. rewrite K1. f_equal. lia.
        + unfold pos, available in *. rewrite K1. lia. }
    bnd. apply (wp_conseq _ _ _ _ FILL). clear FILL. intros b r1 (C1 & L1 & B1 & B2). pose proof (c_inv _ _ _ C1) as I2. pose proof (pos_bounds r1 I2) as (PC1 & PC2 & PC3 & PC4 & PC5 & PC6).
    pose proof (zlen_nonneg data) as ZD. assert (N1P : 0 <= n1) by (unfold n1, data; destruct room; [change (zlen (@nil Z)) with 0; lia|lia]).
    destruct b; cbn [negb].
    - bnd. eapply wp_conseq; [apply IH; [exact I2|exact N1P|specialize (B1 eq_refl); lia]|]. intros [b d2] r2 [H1 H2]. cbn [fst snd] in *. apply wp_ret. split; cbn [fst snd].
      + exact (consumes_app _ _ _ _ _ I1 C1 H1).
      + rewrite zlen_app. unfold n1 in H2. destruct b; lia.
    - gt. bnd. apply take_ok; [exact I2|destruct (n1 <=? available r1) eqn:E; lia|]. intros d r2 D C OE L V _ _. apply wp_ret. split; cbn [fst snd].
      + exact (consumes_app _ _ _ _ _ I1 C1 C).
      + rewrite zlen_app. destruct (n1 <=? available r1) eqn:E; unfold n1 in *; [lia|]. split; [lia|]. intros OK. specialize (B2 eq_refl ltac:(congruence)). destruct (c_reads _ _ _ C) as [_ P]. lia.
  Qed.
  Lemma ReadSlowChain_ok n r : inv r -> 0 <= n -> Z.min (available r) kMaxBytesToCopy < n -> wp (ReadSlowChain n) r (read_post n r).
  Proof.
    intros I1 N A. unfold ReadSlowChain. gt. ast; [lia|]. apply read_chain_loop_ok; auto. rewrite (v_fd _ _ _ (i_raw _ _ _ I1)). rewrite !Nat2Z.inj_succ. change (Z.of_nat (length content)) with (zlen content).
    unfold BufferedReaderSpec.size. pose proof (v_off _ _ _ (i_raw _ _ _ I1)). lia.
  Qed.
  Lemma ReadChain_ok n r : inv r -> 0 <= n -> wp (ReadChain n) r (read_post n r).
  Proof.
    intros I1 N. unfold ReadChain. gt. destruct ((n <=? available r) && (n <=? kMaxBytesToCopy)) eqn:E.
    - bnd. apply take_ok; [exact I1|lia|]. intros d r' D C _ _ _ _ _. apply wp_ret. split; cbn [fst snd]; [exact C|exact D].
    - apply check_read_ok; [exact I1|]. destruct (pos_bounds r I1) as (V & _). unfold kMaxBytesToCopy in *. apply ReadSlowChain_ok; [exact I1|lia|unfold kMaxBytesToCopy; lia].
  Qed.
  Lemma check_enough n m r : inv r -> wp m r (fun x r' => fst x = true /\ read_post n r x r') -> wp (check_read n m) r (fun x r' => fst x = true /\ read_post n r x r').
  Proof.
    intros I1 H. unfold check_read. bnd. apply get_pos_ok; [exact I1|]. bnd. apply (wp_conseq _ _ _ _ H). intros [b d] r' [H0 [H1 H2]]. cbn [fst snd] in *. subst b.
    destruct (c_reads _ _ _ H1) as [_ P]. pose proof (zlen_nonneg d). bnd. apply get_pos_ok; [exact (c_inv _ _ _ H1)|].
    ast; [lia|]. ast; [cbn; lia|]. ast; [lia|]. apply wp_ret. split; [reflexivity|]. split; assumption.
  Qed.
  Lemma ReadSlowChain_enough n r : inv r -> kMaxBytesToCopy < n <= available r -> wp (ReadSlowChain n) r (fun x r' => fst x = true /\ read_post n r x r').
  Proof.
    intros I1 N. unfold kMaxBytesToCopy in N. unfold ReadSlowChain, kMaxBytesToCopy. gt. ast; [lia|]. cbn [read_chain_loop]. gt. replace (n <=? available r) with true by lia.
    bnd. apply take_ok; [exact I1|lia|]. intros d r' D C _ _ _ _ _. apply wp_ret. split; [reflexivity|]. split; cbn [fst snd]; [exact C|exact D].
  Qed.
  Lemma ReadChain_enough n r : inv r -> 0 <= n <= available r -> wp (ReadChain n) r (fun x r' => fst x = true /\ read_post n r x r').
  Proof.
    intros I1 N. unfold ReadChain. gt. destruct ((n <=? available r) && (n <=? kMaxBytesToCopy)) eqn:E.
    - bnd. apply take_ok; [exact I1|lia|]. intros d r' D C _ _ _ _ _. apply wp_ret. split; [reflexivity|]. split; cbn [fst snd]; [exact C|exact D].
    - apply check_enough; [exact I1|]. apply ReadSlowChain_enough; [exact I1|lia].
  Qed.
  (** The result of reading some bytes *)
  Definition some_post (n : Z) (r : reader) (x : bool * list Z) (r' : reader) : Prop :=
    consumes (snd x) r r' /\ if fst x then zlen (snd x) <= n /\ (0 < n -> 0 < zlen (snd x)) else zlen (snd x) = 0 /\ (ok r' = true -> pos r' = size).
  Lemma ReadSomeSlow_ok n r : inv r -> 0 < n -> available r = 0 -> wp (ReadSomeSlow n) r (some_post n r).
  Proof.
    intros I1 N A0. pose proof (pos_bounds r I1) as (PB1 & PB2 & PB3 & PB4 & PB5 & PB6). unfold ReadSomeSlow. gt. ast; [lia|].
    pose proof (i_base _ _ _ I1) as BS. pose proof (zlen_nonneg (r_buf r)).
    destruct (rs_BufferLength_ok (r_sizer r) (r_limit_pos r) 0 0) as (bl & EN & N0 & _); [apply I1|lia|lia|lia|]. bnd. apply (wp_of_option _ bl); [exact EN|].
    destruct (bl <=? n).
    - destruct (ok r) eqn:O; cbn [negb].
      + unfold SyncBuffer. md. gt. pose proof (consumes_sync _ _ _ (consumes_nil r I1) A0) as C2. pose proof (c_inv _ _ _ C2) as I2.
        assert (P2 : pos (set_buf [] 0 r) = r_limit_pos r) by (unfold pos, available; rcbn; change (zlen (@nil Z)) with 0; lia).
        pose proof (up_to_ok n _ I2 N) as UT. destruct (up_to_exact_size n (set_buf [] 0 r)) as [m|].
        * bnd. eapply wp_conseq; [apply direct_ok; [exact I2|reflexivity|exact O|destruct (ToleratesReadingAhead (set_buf [] 0 r)); lia]|]. intros [b d2] r3 (H1 & H2 & H3 & H4 & H5). cbn [fst snd] in *.
          pose proof (zlen_nonneg d2) as ZD. gt. ast; [lia|]. apply wp_ret. rewrite H4. split; cbn [fst snd].
          -- exact (consumes_app [] d2 _ _ _ I1 C2 H1).
          -- destruct (r_limit_pos (set_buf [] 0 r) + zlen d2 =? r_limit_pos (set_buf [] 0 r)) eqn:E; cbn [negb].
             ++ split; [lia|]. destruct b; [destruct (ToleratesReadingAhead (set_buf [] 0 r)); lia|exact (proj2 H5)].
             ++ lia.
        * apply wp_ret. split; cbn [fst snd]; [exact C2|]. split; [reflexivity|]. intros _. change (r_limit_pos (set_buf [] 0 r)) with (r_limit_pos r) in UT. lia.
      + apply wp_ret. split; cbn [fst snd]; [exact (consumes_nil r I1)|]. split; [reflexivity|congruence].
    - bnd. eapply wp_conseq; [apply PullSlow_ok; [exact I1|lia|lia]|]. cbn beta. intros b r1 (A1 & A2 & A3 & A4 & A5 & A6). gt. pose proof (c_inv _ _ _ A1) as I2.
      destruct (pos_bounds r1 I2) as (PC1 & PC2 & PC3 & PC4 & PC5 & PC6). destruct b; cbn [negb].
      + bnd. apply take_ok; [exact I2|lia|]. intros d r2 D C O L V _ _. apply wp_ret. split; cbn [fst snd]; [exact (consumes_app [] d _ _ _ I1 A1 C)|]. lia.
      + apply wp_ret. split; cbn [fst snd]; [exact A1|]. split; [reflexivity|]. intros OK. specialize (A6 eq_refl OK). lia.
  Qed.
  Lemma check_some_ok n m r : inv r -> 0 < n -> wp m r (some_post n r) -> wp (check_read_some n m) r (some_post n r).
  Proof.
    intros I1 N H. unfold check_read_some. bnd. apply get_pos_ok; [exact I1|]. bnd. apply (wp_conseq _ _ _ _ H). intros [b d] r' [H1 H2]. cbn [fst snd] in *.
    destruct (c_reads _ _ _ H1) as [_ P]. pose proof (zlen_nonneg d). bnd. apply get_pos_ok; [exact (c_inv _ _ _ H1)|].
    ast; [destruct b; lia|]. ast; [destruct b; lia|]. ast; [lia|]. apply wp_ret. split; assumption.
  Qed.
  Lemma ReadSome_ok n r : inv r -> 0 <= n -> wp (ReadSome n) r (some_post n r).
  Proof.
    intros I1 N. pose proof (pos_bounds r I1) as (PB1 & PB2 & PB3 & PB4 & PB5 & PB6). unfold ReadSome. gt. destruct ((0 <? available r) || (n =? 0)) eqn:E.
    - bnd. apply take_ok; [exact I1|lia|]. intros d r' D C _ _ _ _ _. apply wp_ret. split; cbn [fst snd]; [exact C|lia].
    - apply check_some_ok; [exact I1|lia|]. apply ReadSomeSlow_ok; [exact I1|lia|lia].
  Qed.
  Lemma ReadSomeView_ok n r : inv r -> 0 <= n -> wp (ReadSomeView n) r (some_post n r).
  Proof.
    intros I1 N. unfold ReadSomeView. bnd.
    assert (H : wp (if n =? 0 then ret true else Pull 1 n) r (fun b r' => consumes [] r r' /\ (b = true -> n = 0 \/ 1 <= available r') /\ (b = false -> available r' = 0 /\ (ok r' = true -> r_limit_pos r' = size)))).
    { destruct (n =? 0) eqn:E; [apply wp_ret; split; [exact (consumes_nil r I1)|]; split; [lia|discriminate]|]. eapply wp_conseq; [apply Pull_ok; auto; lia|]. cbn beta. intros b r1 (A1 & A2 & A3).
      destruct (pos_bounds r1 (c_inv _ _ _ A1)) as (V & _). split; [exact A1|]. split; [lia|]. intros ->. split; [lia|exact (A3 eq_refl)]. }
    apply (wp_conseq _ _ _ _ H). intros b r1 (A1 & A2 & A3). gt. pose proof (c_inv _ _ _ A1) as I2. destruct (pos_bounds r1 I2) as (PB1 & PB2 & PB3 & PB4 & PB5 & PB6).
    bnd. apply take_ok; [exact I2|lia|]. intros d r2 D C O L V _ _. apply wp_ret. split; cbn [fst snd]; [exact (consumes_app [] d _ _ _ I1 A1 C)|].
    destruct b; [specialize (A2 eq_refl); lia|]. specialize (A3 eq_refl). split; [lia|]. intros OK. destruct (c_reads _ _ _ C) as [_ P]. destruct A3 as [A3 A4]. specialize (A4 ltac:(congruence)). lia.
  Qed.
  Lemma ReadSomeChain_ok n r : inv r -> 0 <= n -> wp (ReadSomeChain n) r (some_post n r).
  Proof.
    intros I1 N. pose proof (pos_bounds r I1) as (PB1 & PB2 & PB3 & PB4 & PB5 & PB6). unfold ReadSomeChain. gt. destruct ((0 <? available r) || (n =? 0)) eqn:E.
    - destruct (Z.min n (available r) <=? kMaxBytesToCopy) eqn:K.
      + bnd. apply take_ok; [exact I1|lia|]. intros d r' D C _ _ _ _ _. apply wp_ret. split; cbn [fst snd]; [exact C|lia].
      + eapply wp_conseq; [apply check_enough; [exact I1|]; apply ReadSlowChain_enough; [exact I1|lia]|]. intros [b d] r' [H0 [H1 H2]]. cbn [fst snd] in *. subst b. split; cbn [fst snd]; [exact H1|lia].
    - apply check_some_ok; [exact I1|lia|]. gt. ast; [lia|]. bnd. eapply wp_conseq; [apply PullSlow_ok; [exact I1|lia|lia]|]. cbn beta. intros b r1 (A1 & A2 & A3 & A4 & A5 & A6). gt. pose proof (c_inv _ _ _ A1) as I2.
      destruct (pos_bounds r1 I2) as (PC1 & PC2 & PC3 & PC4 & PC5 & PC6). destruct b; cbn [negb].
      + eapply wp_conseq; [apply ReadChain_enough; [exact I2|lia]|]. intros [b d] r2 [H0 [H1 H2]]. cbn [fst snd] in *. subst b.
        split; cbn [fst snd]; [exact (consumes_app [] d _ _ _ I1 A1 H1)|lia].
      + apply wp_ret. split; cbn [fst snd]; [exact A1|]. split; [reflexivity|]. intros OK. specialize (A6 eq_refl OK). lia.
  Qed.
End S.
