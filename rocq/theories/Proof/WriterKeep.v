(** What happens to the size of data in the buffer beyond the cursor. *)
From Verif Require Import Base.Bytes Spec.PosixFile Model.BufferSizer Model.ByteFill Model.BufferedWriter.

(** written_ stays 0 *)
Definition z0 {A} (f : M A) : Prop := forall w a w', f w = Some (a, w') -> w_written w = 0 -> w_written w' = 0.
(** written_ becomes 0 *)
Definition zr {A} (f : M A) : Prop := forall w a w', f w = Some (a, w') -> w_written w' = 0.
(** written_ becomes 0, or it and start_pos_ are unchanged *)
Definition wk {A} (f : M A) : Prop := forall w a w', f w = Some (a, w') -> w_written w' = 0 \/ (w_written w' = w_written w /\ w_start_pos w' = w_start_pos w).
(** The buffer stays empty *)
Definition zc {A} (f : M A) : Prop := forall w a w', f w = Some (a, w') -> w_cur w = 0 /\ w_lim w = 0 -> w_cur w' = 0 /\ w_lim w' = 0.
(** The buffer becomes empty *)
Definition zcr {A} (f : M A) : Prop := forall w a w', f w = Some (a, w') -> w_cur w' = 0 /\ w_lim w' = 0.
Lemma bind_inv {A B} (f : M A) (g : A -> M B) w b w' : bind f g w = Some (b, w') -> exists a w1, f w = Some (a, w1) /\ g a w1 = Some (b, w').
Proof. unfold bind. destruct (f w) as [[a w1]|]; [|discriminate]. eauto. Qed.
Ltac bi H := let a := fresh "a" in let w := fresh "w" in let E := fresh "E" in apply bind_inv in H as (a & w & E & H).

Lemma z0_bind {A B} (f : M A) (g : A -> M B) : z0 f -> (forall a, z0 (g a)) -> z0 (bind f g).
Proof. intros F G w a w' H W. bi H. exact (G _ _ _ _ H (F _ _ _ E W)). Qed.
Lemma zr_l {A B} (f : M A) (g : A -> M B) : zr f -> (forall a, z0 (g a)) -> zr (bind f g).
Proof. intros F G w a w' H. bi H. exact (G _ _ _ _ H (F _ _ _ E)). Qed.
Lemma zr_r {A B} (f : M A) (g : A -> M B) : (forall a, zr (g a)) -> zr (bind f g).
Proof. intros G w a w' H. bi H. exact (G _ _ _ _ H). Qed.
Lemma wk_bind {A B} (f : M A) (g : A -> M B) : wk f -> (forall a, wk (g a)) -> wk (bind f g).
Proof. intros F G w a w' H. bi H. destruct (G _ _ _ _ H) as [X|[X Y]]; [left; exact X|]. rewrite X, Y. exact (F _ _ _ E). Qed.
Lemma wk_zr {A} (f : M A) : zr f -> wk f.
Proof. intros F w a w' H. left. exact (F _ _ _ H). Qed.
Lemma zc_bind {A B} (f : M A) (g : A -> M B) : zc f -> (forall a, zc (g a)) -> zc (bind f g).
Proof. intros F G w a w' H W. bi H. exact (G _ _ _ _ H (F _ _ _ E W)). Qed.
Lemma zcr_l {A B} (f : M A) (g : A -> M B) : zcr f -> (forall a, zc (g a)) -> zcr (bind f g).
Proof. intros F G w a w' H. bi H. exact (G _ _ _ _ H (F _ _ _ E)). Qed.
Lemma zcr_r {A B} (f : M A) (g : A -> M B) : (forall a, zcr (g a)) -> zcr (bind f g).
Proof. intros G w a w' H. bi H. exact (G _ _ _ _ H). Qed.
Lemma z0_zr {A} (f : M A) : zr f -> z0 f.
Proof. intros F w a w' H _. exact (F _ _ _ H). Qed.
Lemma zc_zcr {A} (f : M A) : zcr f -> zc f.
Proof. intros F w a w' H _. exact (F _ _ _ H). Qed.

Lemma z0_modify g : (forall w, w_written w = 0 -> w_written (g w) = 0) -> z0 (modify g).
Proof. intros G w a w' H. injection H as _ <-. apply G. Qed.
Lemma zr_modify g : (forall w, w_written (g w) = 0) -> zr (modify g).
Proof. intros G w a w' H. injection H as _ <-. apply G. Qed.
Lemma zc_modify g : (forall w, w_cur w = 0 /\ w_lim w = 0 -> w_cur (g w) = 0 /\ w_lim (g w) = 0) -> zc (modify g).
Proof. intros G w a w' H. injection H as _ <-. apply G. Qed.
Lemma zcr_modify g : (forall w, w_cur (g w) = 0 /\ w_lim (g w) = 0) -> zcr (modify g).
Proof. intros G w a w' H. injection H as _ <-. apply G. Qed.
Lemma wk_modify g : (forall w, w_written (g w) = 0 \/ (w_written (g w) = w_written w /\ w_start_pos (g w) = w_start_pos w)) -> wk (modify g).
Proof. intros G w a w' H. injection H as _ <-. apply G. Qed.
Ltac prim2 := let w := fresh in let a := fresh in let w' := fresh in let H := fresh in intros w a w' H; cbv [ret get modify assert of_option syscall] in H;
  repeat match type of H with
  | (if ?b then _ else _) = _ => destruct b; try discriminate
  | (match ?b with _ => _ end) = _ => destruct b; try discriminate
  | (let '(_, _) := ?b in _) = _ => destruct b
  end; injection H; intros; subst; cbn [w_fd w_failed w_open w_start_pos w_buf w_cur w_lim w_written w_sizer w_independent w_random w_owning set_fd set_start_pos set_buf set_written set_sizer set_random set_state]; auto.
Ltac prim := match goal with |- _ (modify _) => first [apply z0_modify | apply zr_modify | apply zc_modify | apply zcr_modify | apply wk_modify]; intros;
  cbn [w_fd w_failed w_open w_start_pos w_buf w_cur w_lim w_written w_sizer w_independent w_random w_owning set_fd set_start_pos set_buf set_written set_sizer set_random set_state]; auto | _ => prim2 end.
Ltac st := cbv beta; repeat first
  [ progress intros
  | match goal with
    | |- z0 (bind _ _) => apply z0_bind
    | |- zc (bind _ _) => apply zc_bind
    | |- wk (bind _ _) => apply wk_bind
    | |- _ (if ?b then _ else _) => destruct b
    | |- _ (match ?b with _ => _ end) => destruct b
    | H : forall _, _ |- _ => solve [simple apply H]
    end
  | solve [auto with keep nocore]
  | solve [prim] ].
Create HintDb keep discriminated.
#[global] Hint Constants Opaque : keep.

Lemma z0_Fail : z0 Fail. Proof. unfold Fail, get_pos. st. Qed.
Lemma zc_Fail : zc Fail. Proof. unfold Fail, get_pos. st. Qed.
Lemma wk_Fail : wk Fail. Proof. unfold Fail, get_pos. st. Qed.
#[global] Hint Resolve z0_Fail zc_Fail wk_Fail : keep.
Lemma z0_loop n : forall src, z0 (write_loop n src).
Proof. induction n; intros src; [intros w a w' H; discriminate|]. cbn [write_loop]. unfold move_start_pos. st. Qed.
Lemma zc_loop n : forall src, zc (write_loop n src).
Proof. induction n; intros src; [intros w a w' H; discriminate|]. cbn [write_loop]. unfold move_start_pos. st. Qed.
#[global] Hint Resolve z0_loop zc_loop : keep.
Lemma z0_WI s : z0 (WriteInternal s). Proof. unfold WriteInternal. st. Qed.
Lemma zc_WI s : zc (WriteInternal s). Proof. unfold WriteInternal. st. Qed.
Lemma z0_SRA : z0 SupportsRandomAccess. Proof. unfold SupportsRandomAccess. st. Qed.
Lemma zc_SRA : zc SupportsRandomAccess. Proof. unfold SupportsRandomAccess. st. Qed.
Lemma wk_SRA : wk SupportsRandomAccess. Proof. unfold SupportsRandomAccess. st. Qed.
Lemma z0_SI p : z0 (SeekInternal p). Proof. unfold SeekInternal. st. Qed.
Lemma zc_SI p : zc (SeekInternal p). Proof. unfold SeekInternal. st. Qed.
#[global] Hint Resolve z0_WI zc_WI z0_SRA zc_SRA wk_SRA z0_SI zc_SI : keep.
Lemma z0_get_pos : z0 get_pos. Proof. unfold get_pos. st. Qed.
Lemma zc_get_pos : zc get_pos. Proof. unfold get_pos. st. Qed.
Lemma wk_get_pos : wk get_pos. Proof. unfold get_pos. st. Qed.
#[global] Hint Resolve z0_get_pos zc_get_pos wk_get_pos : keep.
Lemma z0_SBB p : z0 (SeekBehindBuffer p). Proof. unfold SeekBehindBuffer. st. Qed.
Lemma zc_SBB p : zc (SeekBehindBuffer p). Proof. unfold SeekBehindBuffer. st. Qed.
Lemma z0_SZ : z0 SizeBehindBuffer. Proof. unfold SizeBehindBuffer. st. Qed.
Lemma zc_SZ : zc SizeBehindBuffer. Proof. unfold SizeBehindBuffer. st. Qed.
Lemma z0_TI p : z0 (TruncateInternal p). Proof. unfold TruncateInternal. st. Qed.
Lemma zc_TI p : zc (TruncateInternal p). Proof. unfold TruncateInternal. st. Qed.
#[global] Hint Resolve z0_SBB zc_SBB z0_SZ zc_SZ z0_TI zc_TI : keep.
Lemma z0_TBB p : z0 (TruncateBehindBuffer p). Proof. unfold TruncateBehindBuffer. st. Qed.
Lemma zc_TBB p : zc (TruncateBehindBuffer p). Proof. unfold TruncateBehindBuffer. st. Qed.
Lemma z0_FBB s : z0 (FlushBehindBuffer s). Proof. unfold FlushBehindBuffer. st. Qed.
Lemma zc_FBB s : zc (FlushBehindBuffer s). Proof. unfold FlushBehindBuffer. st. Qed.
Lemma zr_take : zr take_buffer. Proof. unfold take_buffer. apply zr_r. intros. apply zr_r. intros. apply zr_r. intros. apply zr_r. intros. apply zr_l; [prim|st]. Qed.
Lemma zcr_take : zcr take_buffer. Proof. unfold take_buffer. apply zcr_r. intros. apply zcr_r. intros. apply zcr_r. intros. apply zcr_l; [prim|st]. Qed.
#[global] Hint Resolve z0_TBB zc_TBB z0_FBB zc_FBB zr_take zcr_take : keep.
Lemma zr_Sync : zr SyncBuffer. Proof. unfold SyncBuffer. apply zr_l; [apply zr_take|st]. Qed.
Lemma zcr_Sync : zcr SyncBuffer. Proof. unfold SyncBuffer. apply zcr_l; [apply zcr_take|st]. Qed.
Lemma z0_begin : z0 begin_run. Proof. unfold begin_run. st. Qed.
Lemma zc_begin : zc begin_run. Proof. unfold begin_run. st. Qed.
#[global] Hint Resolve zr_Sync zcr_Sync z0_begin zc_begin : keep.
Lemma zr_PushSlow a b : zr (PushSlow a b).
Proof. unfold PushSlow. apply zr_r. intros. apply zr_r. intros. apply zr_l; [apply zr_Sync|st]. Qed.
#[global] Hint Resolve zr_PushSlow : keep.
Lemma wk_Push a b : wk (Push a b).
Proof. unfold Push. st. apply wk_zr, zr_PushSlow. Qed.
Lemma z0_Push a b : z0 (Push a b).
Proof. unfold Push. st. apply z0_zr, zr_PushSlow. Qed.
Lemma wk_put d : wk (put d). Proof. unfold put. st. Qed.
Lemma z0_put d : z0 (put d). Proof. unfold put. st. Qed.
#[global] Hint Resolve wk_Push z0_Push wk_put z0_put : keep.
Lemma z0_slow n : forall src, z0 (write_slow_loop n src).
Proof. induction n; intros src; [intros w a w' H; discriminate|]. cbn [write_slow_loop]. st. apply z0_zr, zr_PushSlow. Qed.
Lemma zr_slow n : forall src, zr (write_slow_loop n src).
Proof.
  induction n; intros src; [intros w a w' H; discriminate|]. cbn [write_slow_loop]. apply zr_r. intros. apply zr_r. intros. apply zr_l; [apply zr_PushSlow|]. st. apply z0_slow.
Qed.
#[global] Hint Resolve z0_slow zr_slow : keep.
Lemma zr_WriteSlow s : zr (WriteSlow s).
Proof.
  unfold WriteSlow. do 4 (apply zr_r; intros). destruct (_ <=? _); [apply zr_l; [apply zr_Sync|st]|apply zr_slow].
Qed.
#[global] Hint Resolve zr_WriteSlow : keep.
Lemma wk_Write s : wk (Write s). Proof. unfold Write. st. apply wk_zr, zr_WriteSlow. Qed.
Lemma z0_Write s : z0 (Write s). Proof. unfold Write. st. apply z0_zr, zr_WriteSlow. Qed.
#[global] Hint Resolve wk_Write z0_Write : keep.
Lemma wk_External s : wk (WriteExternal s). Proof. unfold WriteExternal. st. Qed.
Lemma wk_fragments l : wk (write_fragments l). Proof. induction l; cbn [write_fragments]; st. Qed.
Lemma z0_fragments l : z0 (write_fragments l). Proof. induction l; cbn [write_fragments]; st. Qed.
#[global] Hint Resolve wk_External wk_fragments z0_fragments : keep.
Lemma wk_Chain l : wk (WriteChain l). Proof. unfold WriteChain. st. Qed.
Lemma wk_SlowFill n f : wk (WriteSlowFill n f). Proof. unfold WriteSlowFill. st. Qed.
Lemma z0_SlowFill n f : z0 (WriteSlowFill n f). Proof. unfold WriteSlowFill. st. Qed.
#[global] Hint Resolve wk_Chain wk_SlowFill z0_SlowFill : keep.
Lemma zr_Size : zr Size. Proof. unfold Size. apply zr_r. intros. apply zr_l; [apply zr_Sync|st]. Qed.
#[global] Hint Resolve zr_Size : keep.
Lemma wk_Fill n f : wk (WriteFill n f).
Proof.
  unfold WriteFill. apply wk_bind; [st|]. intros w. destruct (_ && _); [st|]. apply wk_bind; [st|]. intros _. apply wk_bind; [destruct (negb (f =? 0)); st|]. intros r. destruct (negb r); [st|].
  apply wk_zr, zr_l; [apply zr_Size|]. st.
Qed.
Lemma zr_Flush m : zr (Flush m). Proof. unfold Flush. apply zr_r. intros. apply zr_l; [apply zr_take|st]. Qed.
Lemma zr_Truncate n : zr (Truncate n). Proof. unfold Truncate. apply zr_r. intros. apply zr_l; [apply zr_Sync|st]. Qed.
Lemma zcr_Truncate n : zcr (Truncate n). Proof. unfold Truncate. apply zcr_r. intros. apply zcr_l; [apply zcr_Sync|st]. Qed.
Lemma wk_hint h : wk (SetWriteSizeHint h). Proof. unfold SetWriteSizeHint. st. Qed.
#[global] Hint Resolve wk_Fill zr_Flush zr_Truncate zcr_Truncate wk_hint : keep.
Lemma SRA_true w w' : SupportsRandomAccess w = Some (true, w') -> w_cur w' = w_cur w /\ w_written w' = w_written w /\ w_start_pos w' = w_start_pos w.
Proof.
  unfold SupportsRandomAccess. intros H. bi H. injection E as <- <-. destruct (w_random w) as [b|]; [injection H as _ <-; auto|]. destruct (negb (ok w)); [injection H as X _; discriminate|].
  bi H. unfold syscall in E. destruct (sys_seek_end (w_fd w)) as [b f]. injection E as <- <-. destruct (negb b).
  - bi H. injection H as X _. discriminate.
  - bi H. unfold syscall in E. destruct (sys_seek _ _) as [b2 f2]. injection E as <- <-. destruct (negb b2); [bi H; bi H; injection H as X _; discriminate|]. bi H. injection E as _ <-. injection H as <-. auto.
Qed.
Lemma Seek_written p w b w' : Seek p w = Some (b, w') -> w_written w' = 0 \/ (w_start_pos w' = w_start_pos w /\ w_written w' <= Z.max (w_cur w) (w_written w)).
Proof.
  unfold Seek. intros H. bi H. assert (X : w0 = w) by (unfold get_pos in E; bi E; injection E0 as <- <-; bi E; injection E as _ <-; unfold assert in E0; destruct (_ <=? _); [|discriminate]; injection E0 as _ <-; reflexivity). subst w0.
  destruct (p =? a); [injection H as _ <-; right; lia|]. bi H. bi H. injection E1 as <- <-. destruct (a0 && _ && _) eqn:C.
  - apply andb_prop in C as [C _]. apply andb_prop in C as [-> _]. destruct (SRA_true _ _ E0) as (X1 & X2 & X3). bi H. injection E1 as _ <-. bi H. unfold assert in E1. destruct (_ && _); [|discriminate]. injection E1 as _ <-.
    bi H. injection E1 as _ <-. injection H as _ <-. right. cbn. rewrite X1, X2, X3. lia.
  - left. revert H. refine (zr_r _ _ _ _ _ _). intros []. apply zr_l; [apply zr_Sync|st].
Qed.
