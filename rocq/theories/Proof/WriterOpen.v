(** Only Close() closes the writer. *)
From Verif Require Import Base.Bytes Spec.PosixFile Model.BufferSizer Model.ByteFill Model.BufferedWriter.

Definition keeps {A} (f : M A) : Prop := forall w a w', f w = Some (a, w') -> w_open w' = w_open w.
Lemma keeps_bind {A B} (f : M A) (g : A -> M B) : keeps f -> (forall a, keeps (g a)) -> keeps (bind f g).
Proof. intros F G w b w' E. unfold bind in E. destruct (f w) as [[a w1]|] eqn:E1; [|discriminate]. rewrite (G a _ _ _ E). exact (F _ _ _ E1). Qed.
Lemma keeps_get {B} (g : writer -> M B) : (forall w0, keeps (fun w => g w0 w)) -> keeps (bind get g).
Proof. intros G w b w' E. exact (G w w b w' E). Qed.
Lemma keeps_ret {A} (a : A) : keeps (ret a).
Proof. intros w b w' E. injection E as <- <-. reflexivity. Qed.
Lemma keeps_modify g : (forall w, w_open (g w) = w_open w) -> keeps (modify g).
Proof. intros G w b w' E. injection E as <- <-. apply G. Qed.
Lemma keeps_assert b : keeps (assert b).
Proof. intros w x w' E. unfold assert in E. destruct b; [injection E as <- <-; reflexivity|discriminate]. Qed.
Lemma keeps_of_option {A} (o : option A) : keeps (of_option o).
Proof. intros w x w' E. unfold of_option in E. destruct o; [injection E as <- <-; reflexivity|discriminate]. Qed.
Lemma keeps_syscall {A} (s : fd -> A * fd) : keeps (syscall s).
Proof. intros w x w' E. unfold syscall in E. destruct (s (w_fd w)). injection E as <- <-. reflexivity. Qed.
Lemma keeps_none {A} : keeps (fun _ : writer => None : option (A * writer)).
Proof. intros w x w' E. discriminate. Qed.
Lemma keeps_get0 : keeps get.
Proof. intros w x w' E. injection E as <- <-. reflexivity. Qed.
Ltac kp := cbv beta; repeat match goal with
  | |- forall _, _ => intro
  | |- keeps (bind _ _) => apply keeps_bind
  | |- keeps get => exact keeps_get0
  | |- keeps (ret _) => apply keeps_ret
  | |- keeps (modify _) => apply keeps_modify; intros; reflexivity
  | |- keeps (assert _) => apply keeps_assert
  | |- keeps (of_option _) => apply keeps_of_option
  | |- keeps (syscall _) => apply keeps_syscall
  | |- keeps (fun _ => None) => exact keeps_none
  | |- keeps (if ?b then _ else _) => destruct b
  | |- keeps (match ?b with _ => _ end) => destruct b
  | H : keeps ?f |- keeps ?f => exact H
  | H : forall _, keeps _ |- keeps _ => apply H
  end; auto.
Create HintDb kp.
Lemma keeps_get_pos : keeps get_pos. Proof. unfold get_pos. kp. Qed.
Lemma keeps_Fail : keeps Fail.
Proof.
  intros w a w'. unfold Fail, bind, get, modify, get_pos, assert, ret. destruct (w_failed w); [congruence|]. destruct (w_open w) eqn:O.
  - cbn [bind]. unfold bind, get. destruct (_ <=? _); [|discriminate]. intros E. injection E as <- <-. reflexivity.
  - intros E. injection E as <- <-. reflexivity.
Qed.
Ltac kk := kp; repeat (first [apply keeps_get_pos | apply keeps_Fail | solve [auto with kp nocore]]; kp).
Lemma keeps_move p : keeps (move_start_pos p). Proof. unfold move_start_pos. kk. Qed.
Lemma keeps_write_loop n : forall src, keeps (write_loop n src).
Proof. induction n; cbn [write_loop]; intros; kk; apply keeps_move. Qed.
#[local] Hint Resolve keeps_get_pos keeps_Fail keeps_move keeps_write_loop : kp.
Lemma keeps_WriteInternal s : keeps (WriteInternal s). Proof. unfold WriteInternal. kk. Qed.
Lemma keeps_SRA : keeps SupportsRandomAccess. Proof. unfold SupportsRandomAccess. kk. Qed.
#[local] Hint Resolve keeps_WriteInternal keeps_SRA : kp.
Lemma keeps_SeekInternal p : keeps (SeekInternal p). Proof. unfold SeekInternal. kk. Qed.
#[local] Hint Resolve keeps_SeekInternal : kp.
Lemma keeps_SeekBehindBuffer p : keeps (SeekBehindBuffer p). Proof. unfold SeekBehindBuffer. kk. Qed.
Lemma keeps_SizeBehindBuffer : keeps SizeBehindBuffer. Proof. unfold SizeBehindBuffer. kk. Qed.
Lemma keeps_TruncateInternal p : keeps (TruncateInternal p). Proof. unfold TruncateInternal. kk. Qed.
#[local] Hint Resolve keeps_SeekBehindBuffer keeps_SizeBehindBuffer keeps_TruncateInternal : kp.
Lemma keeps_TruncateBehindBuffer p : keeps (TruncateBehindBuffer p). Proof. unfold TruncateBehindBuffer. kk. Qed.
Lemma keeps_FlushBehindBuffer s : keeps (FlushBehindBuffer s). Proof. unfold FlushBehindBuffer. kk. Qed.
Lemma keeps_take_buffer : keeps take_buffer. Proof. unfold take_buffer. kk. Qed.
#[local] Hint Resolve keeps_TruncateBehindBuffer keeps_FlushBehindBuffer keeps_take_buffer : kp.
Lemma keeps_SyncBuffer : keeps SyncBuffer. Proof. unfold SyncBuffer. kk. Qed.
#[local] Hint Resolve keeps_SyncBuffer : kp.
Lemma keeps_PushSlow a b : keeps (PushSlow a b). Proof. unfold PushSlow. kk. Qed.
#[local] Hint Resolve keeps_PushSlow : kp.
Lemma keeps_Push a b : keeps (Push a b). Proof. unfold Push. kk. Qed.
Lemma keeps_put a : keeps (put a). Proof. unfold put. kk. Qed.
#[local] Hint Resolve keeps_Push keeps_put : kp.
Lemma keeps_write_slow_loop n : forall src, keeps (write_slow_loop n src).
Proof. induction n; cbn [write_slow_loop]; intros; kk. Qed.
#[local] Hint Resolve keeps_write_slow_loop : kp.
Lemma keeps_WriteSlow s : keeps (WriteSlow s). Proof. unfold WriteSlow. kk. Qed.
#[local] Hint Resolve keeps_WriteSlow : kp.
Lemma keeps_Write s : keeps (Write s). Proof. unfold Write. kk. Qed.
Lemma keeps_WriteChar s : keeps (WriteChar s). Proof. unfold WriteChar. kk. Qed.
#[local] Hint Resolve keeps_Write keeps_WriteChar : kp.
Lemma keeps_WriteExternal s : keeps (WriteExternal s). Proof. unfold WriteExternal. kk. Qed.
Lemma keeps_fragments s : keeps (write_fragments s). Proof. induction s; cbn [write_fragments]; kk. Qed.
#[local] Hint Resolve keeps_WriteExternal keeps_fragments : kp.
Lemma keeps_WriteChain s : keeps (WriteChain s). Proof. unfold WriteChain. kk. Qed.
Lemma keeps_WriteSlowFill a b : keeps (WriteSlowFill a b). Proof. unfold WriteSlowFill. kk. Qed.
Lemma keeps_end_run : keeps end_run. Proof. unfold end_run. kk. Qed.
Lemma keeps_begin_run : keeps begin_run. Proof. unfold begin_run. kk. Qed.
#[local] Hint Resolve keeps_WriteChain keeps_WriteSlowFill keeps_end_run keeps_begin_run : kp.
Lemma keeps_Size : keeps Size. Proof. unfold Size. kk. Qed.
#[local] Hint Resolve keeps_Size : kp.
Lemma keeps_WriteFill a b : keeps (WriteFill a b). Proof. unfold WriteFill. kk. Qed.
Lemma keeps_Flush m : keeps (Flush m). Proof. unfold Flush. kk. Qed.
Lemma keeps_Seek p : keeps (Seek p). Proof. unfold Seek. kk. Qed.
Lemma keeps_Truncate p : keeps (Truncate p). Proof. unfold Truncate. kk. Qed.
Lemma keeps_hint p : keeps (SetWriteSizeHint p). Proof. unfold SetWriteSizeHint. kk. Qed.
#[local] Hint Resolve keeps_WriteFill keeps_Flush keeps_Seek keeps_Truncate keeps_hint : kp.
Lemma keeps_exec c : c <> CClose -> keeps (exec c).
Proof. intros N. destruct c; cbn [exec]; try congruence; kk. Qed.
Lemma keeps_run calls : Forall (fun c => c <> CClose) calls -> keeps (run calls).
Proof. induction 1; cbn [run]; kp. apply keeps_exec. assumption. Qed.
