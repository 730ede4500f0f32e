(** C37: a LimitingReader is the original reader which ends at the limit, whatever calls are made, whatever limits are set and restored, whatever
    the buffers of the original reader contain and whatever system calls fail. *)
From Verif Require Import Base.Bytes Model.BufferSizer Model.BufferedReader Spec.BufferedReaderSpec Model.LimitingReader Spec.LimitingReaderSpec Proof.LimitingProof.
Import BufferedWriter(fd, f_content, f_pos, f_append, f_calls, Build_fd, kMaxFdPosition).

(** The original reader is any open one, after any history of calls.  Any calls on the limiting reader, as long as the documented requirements are met and the limit is
    not raised while the original reader may be behind it: no assertion fails, every call returns, and does what a byte string with a cursor, ending at the limit,
    allows; if no system call fails then it fails only when it may. *)
Theorem C37_limiter : forall f options assumed_pos independent_pos growing src_owning spaces before limit exact longer owning calls,
  fd_ok f independent_pos -> options_valid options -> option_ok assumed_pos -> Forall call_ok before -> limit_option_ok limit -> Forall lcall_ok calls ->
  exists r os r', new_reader f options assumed_pos independent_pos growing src_owning spaces = Some r /\ run before r = Some (os, r') /\ (r_open r' = true ->
    let shift := file_pos f independent_pos - pos r in
    exists l, new_limiter r' limit exact longer owning = Some l /\
    lhistory (f_content f) shift (r_random r') (r_independent r') owning (calls_succeed (r_fd r') /\ size (f_content f) shift < kMaxFdPosition) calls
      (initial (pos r') (ok r') limit exact longer) (lrun calls l)).
Proof.
  intros f o a i g own sp before limit exact longer owning calls F O A C1 L C2. destruct (limiter_ok f o a i g own sp before limit exact longer owning calls O F A C1 L C2) as (r & os & r' & E1 & E2 & H).
  exists r, os, r'. split; [exact E1|]. split; [exact E2|]. intros OP. destruct (H OP) as (_ & _ & _ & _ & l & E3 & H'). exists l. auto.
Qed.
(** Whatever fails, what is read by any reading functions from a reader limited to [n] bytes is, together, a piece of the file, starting from where the
    original reader was, and not longer than [n]. *)
Theorem C37_never_beyond : forall f options assumed_pos independent_pos growing src_owning spaces before n exact longer owning calls,
  fd_ok f independent_pos -> options_valid options -> option_ok assumed_pos -> Forall call_ok before -> 0 <= n < 2 ^ 64 -> Forall call_ok calls -> forallb is_read calls = true ->
  exists r os r', new_reader f options assumed_pos independent_pos growing src_owning spaces = Some r /\ run before r = Some (os, r') /\ (r_open r' = true ->
    exists l, new_limiter r' (MaxLength n) exact longer owning = Some l /\
    let data := concat (map ldata_of (lrun (map LReader calls) l)) in
    zlen data <= n /\ data = piece (f_content f) (file_pos f independent_pos - pos r) (pos r') (zlen data)).
Proof.
  intros f o a i g own sp before n exact longer owning calls F O A C1 L C2 R. assert (C3 : Forall lcall_ok (map LReader calls)) by (apply Forall_map; exact C2).
  destruct (limiter_ok f o a i g own sp before (MaxLength n) exact longer owning (map LReader calls) O F A C1 L C3) as (r & os & r' & E1 & E2 & H).
  exists r, os, r'. split; [exact E1|]. split; [exact E2|]. intros OP. destruct (H OP) as (P0 & P1 & P2 & P3 & l & E3 & H'). exists l. split; [exact E3|].
  assert (KM : kMaxFdPosition < kMaxPosition) by (unfold kMaxFdPosition, kMaxPosition; lia).
  assert (MP : Z.min (pos r') (Z.min (pos r' + n) kMaxPosition) = pos r') by (clear - L P3 KM; lia). apply lhistory_stream in H'; unfold initial in *; cbn [a_pos a_behind a_limit] in *; auto.
  - rewrite MP in H'. destruct H' as [H1 H2]. split; [clear - H2; lia|exact H1].
  - rewrite MP. exact P1.
  - apply Z.ltb_ge. clear - L P3 KM. lia.
  - apply Z.le_min_r.
Qed.
(** Reading a fragment of [n] bytes which is in the file, asking for [m] bytes, and closing: exactly the fragment is read, and the original reader is left
    right after it. *)
Theorem C37_fragment : forall f options assumed_pos independent_pos growing src_owning spaces before n m exact owning,
  fd_ok f independent_pos -> options_valid options -> option_ok assumed_pos -> Forall call_ok before -> 0 <= n <= m -> m < 2 ^ 64 ->
  exists r os r', new_reader f options assumed_pos independent_pos growing src_owning spaces = Some r /\ run before r = Some (os, r') /\
    let shift := file_pos f independent_pos - pos r in
    (ok r' = true -> calls_succeed (r_fd r') -> size (f_content f) shift < kMaxFdPosition -> pos r' + n <= size (f_content f) shift ->
    exists l o1 o2, new_limiter r' (MaxLength n) exact false owning = Some l /\ lrun [LReader (CRead m); LReader CClose] l = [o1; o2] /\
      q_result o1 = RBytes (m =? n) (piece (f_content f) shift (pos r') n) /\ q_ok o1 = true /\ q_result o2 = RBool true /\ q_src_pos o2 = pos r' + n).
Proof.
  intros f o a i g own sp before n m exact owning F O A C1 N M. assert (C3 : Forall lcall_ok [LReader (CRead m); LReader CClose]) by (repeat constructor; cbn; lia).
  destruct (limiter_ok f o a i g own sp before (MaxLength n) exact false owning _ O F A C1 ltac:(cbn; lia) C3) as (r & os & r' & E1 & E2 & H).
  exists r, os, r'. split; [exact E1|]. split; [exact E2|]. cbn zeta. intros OK CS SZ FIT. destruct H as (P0 & P1 & P2 & P3 & l & E3 & H'); [unfold ok in OK; apply andb_prop in OK; apply OK|].
  assert (KM : kMaxFdPosition < kMaxPosition) by (unfold kMaxFdPosition, kMaxPosition; lia). set (shift := file_pos f i - pos r) in *. clearbody shift.
  assert (LM : Z.min (pos r' + n) kMaxPosition = pos r' + n) by (clear - FIT SZ KM; lia). assert (MP : Z.min (pos r') (pos r' + n) = pos r') by (clear - N; lia).
  assert (B1 : (kMaxPosition <? pos r' + n) = false) by (apply Z.ltb_ge; clear - FIT SZ KM; lia). assert (B2 : (pos r' + n <? pos r') = false) by (apply Z.ltb_ge; clear - N; lia).
  unfold initial in H'. rewrite LM, MP, B1, B2, OK, andb_false_r in H'. exists l. destruct (lrun [LReader (CRead m); LReader CClose] l) as [|o1 os1]; cbn [lhistory] in H'; [destruct (H' Logic.I)|].
  destruct (H' Logic.I) as (G1 & s1 & (G2 & ->) & H2). clear H'. destruct os1 as [|o2 os2]; [destruct (H2 Logic.I)|]. destruct (H2 Logic.I) as (G3 & s2 & (G4 & ->) & ->). clear H2.
  exists o1, o2. split; [exact E3|]. split; [reflexivity|]. unfold has, enough, ending, may_fail, may_fail_reader, lnot_failed, reader_call, reads, still_behind, has, enough, ending in *. cbn [a_pos a_ok a_limit a_exact a_longer a_behind a_scopes andb negb] in *.
  assert (O1 : q_ok o1 = true). { apply G1; [auto|reflexivity|]. intros [X|[X _]]; [|discriminate]. apply X. intros _. clear - FIT. lia. }
  assert (O2 : q_result o2 = RBool true). { apply G3; [auto|exact O1|]. intros [(X & _)|(X & _)]; discriminate. }
  destruct G2 as (_ & _ & _ & L1 & L2 & L3 & G2). destruct (q_result o1) as [?|b data|?|?|]; try (destruct G2; fail). destruct G2 as ((D1 & D2) & D3). pose proof (zlen_nonneg data) as ZD.
  assert (LN : zlen data = n /\ b = (m =? n)).
  { destruct b; [split; [|symmetry; apply Z.eqb_eq]; clear - N D2 D3 L1; lia|]. destruct D3 as [D3 D4]. destruct (D4 O1) as [D5 _]. split; [|symmetry; apply Z.eqb_neq]; clear - D2 D3 D5 FIT N; lia. }
  destruct LN as [LN ->]. split; [rewrite D1, LN; reflexivity|]. split; [exact O1|]. split; [exact O2|]. destruct G4 as (_ & _ & _ & _ & _ & _ & G4). rewrite O2 in G4. destruct G4 as (_ & _ & G4).
  destruct (G4 O1 eq_refl) as [G5 _]. destruct (G5 eq_refl) as [G6 _]. rewrite G6. clear - D2 LN. lia.
Qed.

Definition small := {| min_buffer_size := 4; max_buffer_size := 8 |}.
Definition example_fd := {| f_content := [1; 2; 3; 4; 5; 6; 7; 8; 9; 10; 11; 12; 13; 14; 15; 16; 17; 18; 19; 20]; f_pos := 2; f_append := false; f_calls := [1; 1; 1; 3; 1; 1; 2] |}.
(** Fragments by set_max_length() and by nested ScopedLimiters, with small buffers and short reads *)
Example C37_limiter_example :
  exists r os r' l, new_reader example_fd small None None false true [true; false; true] = Some r /\ run [CRead 1] r = Some (os, r') /\
    new_limiter r' (MaxPos 18) false false true = Some l /\
    let os := lrun [LReader (CRead 2); LSetMaxLength 5; LReader (CRead 9); LReader (CSeek 4); LReader (CReadSome 100); LSetMaxPos 19; LScope (MaxLength 4) true false; LReader (CReadView 3);
      LScope (MaxLength 1) true true; LReader (CReadChain 2); LSetFailIfLonger true; LReader CSize; LReader (CSkip 1); LReader (CPull 1 0)] l in
    map q_result os = [RBytes true [4; 5]; RUnit; RBytes false [6; 7; 8; 9; 10]; RBool true; RBytes true [5; 6; 7; 8; 9; 10]; RUnit; RUnit; RBytes true [11; 12; 13]; RUnit; RBytes false [14]; RUnit;
      RSize (Some 14); RSkip false 0; RBool false] /\
    map q_pos os = [5; 5; 10; 4; 10; 10; 10; 13; 13; 14; 14; 14; 14; 14] /\ map q_max_pos os = [18; 10; 10; 10; 10; 19; 14; 14; 14; 14; 14; 14; 14; 14] /\ forallb q_ok os = true.
Proof. eexists _, _, _, _. split; [vm_compute; reflexivity|]. split; [vm_compute; reflexivity|]. split; [vm_compute; reflexivity|]. vm_compute. repeat split; reflexivity. Qed.
(** The requirements of the history are met there *)
Example C37_hypotheses : fd_ok example_fd None /\ options_valid small /\ limit_option_ok (MaxPos 18) /\ Forall lcall_ok [LReader (CRead 2); LSetMaxLength 5; LScope (MaxLength 4) true false; LEndScope] /\
  forall s, s = initial 3 true (MaxPos 18) false false -> required (LSetMaxLength 5) s /\ required (LSetMaxPos 4) s /\ required LClearLimit s /\
    exists s', options_call [] 0 (LScope (MaxLength 4) true false) s s' /\ required LEndScope s' /\ a_limit s' = 7.
Proof.
  unfold fd_ok, options_valid, kMaxFdPosition. cbn. repeat split; try lia; repeat (constructor; cbn; try lia); subst; cbn; try discriminate; try reflexivity.
  eexists. split; [reflexivity|]. split; [|reflexivity]. cbn. split; [lia|discriminate].
Qed.

(** What does not hold. *)
(** The limit is set before the position and raised again: the position is 2, yet ReadByte() returns the byte from position 6 (and Read() fails
    an assertion). *)
Theorem C37_behind_refuted :
  exists f r l, calls_succeed f /\ new_reader f small None None false true [] = Some r /\ new_limiter r NoLimit false false true = Some l /\
    f_content f = [1; 2; 3; 4; 5; 6; 7; 8; 9; 10] /\
    let os := lrun [LReader (CRead 6); LSetMaxPos 2; LSetMaxPos 100; LReader CReadByte] l in
    map q_result os = [RBytes true [1; 2; 3; 4; 5; 6]; RUnit; RUnit; RBytes true [7]] /\ map q_pos os = [6; 2; 2; 7] /\ forallb q_ok os = true.
Proof. exists {| f_content := [1; 2; 3; 4; 5; 6; 7; 8; 9; 10]; f_pos := 0; f_append := false; f_calls := [] |}. eexists _, _. split; [constructor|]. split; [vm_compute; reflexivity|]. split; [vm_compute; reflexivity|]. vm_compute. repeat split; reflexivity. Qed.
(** A ScopedLimiter whose options are not exact: "reading will end cleanly when the source ends".  It makes the LimitingReader exact, thus reading to the end fails. *)
Theorem C37_scope_exact_refuted :
  exists f r l, calls_succeed f /\ new_reader f small None None false true [] = Some r /\ new_limiter r NoLimit false false true = Some l /\ f_content f = [1; 2; 3] /\
    let os := lrun [LScope (MaxLength 5) false false; LReader CSize; LReader (CRead 5)] l in
    map q_result os = [RUnit; RSize (Some 5); RBytes false [1; 2; 3]] /\ map q_ok os = [true; true; false].
Proof. exists {| f_content := [1; 2; 3]; f_pos := 0; f_append := false; f_calls := [] |}. eexists _, _. split; [constructor|]. split; [vm_compute; reflexivity|]. split; [vm_compute; reflexivity|]. vm_compute. repeat split; reflexivity. Qed.
(** Even with no limit at all Size() is then wrong. *)
Theorem C37_scope_size_refuted :
  exists f r l, calls_succeed f /\ new_reader f small None None false true [] = Some r /\ new_limiter r NoLimit false false true = Some l /\ f_content f = [1; 2; 3] /\
    let os := lrun [LScope NoLimit false false; LReader CSize] l in
    map q_result os = [RUnit; RSize (Some 18446744073709551615)] /\ map q_ok os = [true; true].
Proof. exists {| f_content := [1; 2; 3]; f_pos := 0; f_append := false; f_calls := [] |}. eexists _, _. split; [constructor|]. split; [vm_compute; reflexivity|]. split; [vm_compute; reflexivity|]. vm_compute. repeat split; reflexivity. Qed.
(** fail_if_longer(): the original source is longer, and reading it fails when this is checked: Close() of the LimitingReader returns true. *)
Theorem C37_longer_unverified_refuted :
  exists f r l, new_reader f small None None false true [] = Some r /\ new_limiter r (MaxLength 4) true true false = Some l /\ zlen (f_content f) = 10 /\
    let os := lrun [LReader (CRead 4); LReader CClose] l in
    map q_result os = [RBytes true [1; 2; 3; 4]; RBool true] /\ map q_src_ok os = [true; false].
Proof. exists {| f_content := [1; 2; 3; 4; 5; 6; 7; 8; 9; 10]; f_pos := 0; f_append := false; f_calls := [1; 1; 1; 4; 0] |}. eexists _, _. split; [vm_compute; reflexivity|]. split; [vm_compute; reflexivity|]. vm_compute. repeat split; reflexivity. Qed.
Print Assumptions C37_limiter.
Print Assumptions C37_never_beyond.
Print Assumptions C37_fragment.
Print Assumptions C37_behind_refuted.
Print Assumptions C37_scope_exact_refuted.
Print Assumptions C37_scope_size_refuted.
Print Assumptions C37_longer_unverified_refuted.
