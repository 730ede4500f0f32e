(** C42: the state of an object: open or closed, not failed or failed with a status.
    [v_open] and [v_failure] are what is_open(), not_failed(), ok() and status() show (Spec/ObjectSpec.v). *)
From Verif Require Import Base.Bytes Model.Object Spec.ObjectSpec Proof.ObjectProof.

Section WithStatus.
Context {status : Type}.
Variable is_ok_status : status -> bool.
Variables ok_status closed_status : status.
Notation exec := (exec is_ok_status ok_status closed_status).
Notation run := (run is_ok_status ok_status closed_status).
Notation seen := (seen ok_status closed_status).
Notation reachable := (reachable is_ok_status ok_status closed_status).
Notation good := (fun v => match v_failure v with None => true | Some _ => false end).

(** After every history, each existing object is open or closed, and failed with a status which is not OK, or not failed; and
    ok(), is_open(), not_failed() and status() agree with each other about that. *)
Theorem C42_state w x : reachable w -> status_ptr w x <> None ->
  exists v, seen x w v /\ forall s, v_failure v = Some s -> is_ok_status s = false.
Proof.
  intros R%reachable_inv E. destruct (status_ptr w x) as [p|] eqn:P; [clear E|contradiction].
  destruct (lookup_exists is_ok_status w x p R P) as [v V]. exists v. split; [exact (lookup_seen ok_status closed_status w x v V)|].
  intros s S1. unfold lookup in V. rewrite P in V. destruct (p =? 0); [injection V as <-; discriminate|]. destruct (p =? 1); [injection V as <-; discriminate|].
  destruct (heap w p) as [c|] eqn:H; [|discriminate]. injection V as <-. injection S1 as <-. exact (proj1 (proj2 (inv_leak _ w R p c H))).
Qed.
(** No history reads or frees memory which is not allocated; the allocated statuses are exactly those of the failed objects, and no two
    objects share one (so they are never freed twice, and all are freed when all objects are destroyed). *)
Theorem C42_memory : (forall history, run history empty_world <> BadMemory) /\
  forall w, reachable w ->
    (forall p, heap w p <> None <-> exists x, status_ptr w x = Some p /\ not_failed x w = Good false) /\
    (forall x y p, status_ptr w x = Some p -> status_ptr w y = Some p -> heap w p <> None -> x = y).
Proof.
  split.
  - intros h E. pose proof (run_safe is_ok_status ok_status closed_status h empty_world (inv_empty _)) as S1. rewrite E in S1. exact S1.
  - intros w R%reachable_inv. split.
    + intro p. split.
      * intro H. destruct (heap w p) as [c|] eqn:E; [|contradiction]. destruct (inv_leak _ w R p c E) as (L & _ & x & X). exists x. split; [exact X|].
        unfold not_failed, get_ptr, kOk, kClosedSuccessfully. rewrite X. cbn. replace (p =? 0) with false by lia. replace (p =? 1) with false by lia. reflexivity.
      * intros (x & X & N). unfold not_failed, get_ptr, kOk, kClosedSuccessfully in N. rewrite X in N. cbn in N.
        destruct (ptr_cases is_ok_status w x p R X) as [->|[->|(_ & _ & _ & c & D)]]; [discriminate..|congruence].
    + intros x y p X Y H. destruct (heap w p) as [c|] eqn:E; [|contradiction]. exact (inv_own _ w R x y p X Y (proj1 (inv_leak _ w R p c E))).
Qed.
(** Every function succeeds whenever its documented preconditions are met. *)
Theorem C42_progress w o : reachable w -> permitted is_ok_status ok_status closed_status w o -> exists w' b, exec o w = Good (w', b).
Proof. intros R%reachable_inv L. destruct (progress is_ok_status ok_status closed_status o w R L) as [[w' b] E]. exists w', b. exact E. Qed.
(** Fail() returns false and leaves is_open() as it was; the status becomes the given one with the annotation of the object, unless
    the object is already failed, in which case nothing is changed.  FailWithoutAnnotation() is the same without the annotation. *)
Theorem C42_fail w w' x v address annotate s b : reachable w -> seen x w v -> exec (OFail x address annotate s) w = Good (w', b) ->
  b = false /\ seen x w' {| v_open := v_open v; v_failure := match v_failure v with None => Some (annotate s) | Some first => Some first end |}.
Proof.
  intros R%reachable_inv V%(seen_lookup is_ok_status); [|exact R]. cbn. intro E. pose proof (Fail_ok is_ok_status ok_status closed_status w x address annotate s R) as F.
  destruct (Fail _ _ _ _ _ _ _ _) as [w1| |]; cbn in E; try discriminate. injection E as <- <-. destruct F as (_ & _ & u & U & C). rewrite V in U. injection U as <-.
  split; [reflexivity|]. apply lookup_seen. rewrite C, Nat.eqb_refl. reflexivity.
Qed.
Theorem C42_fail_without_annotation w w' x v address s b : reachable w -> seen x w v -> exec (OFailWithoutAnnotation x address s) w = Good (w', b) ->
  b = false /\ seen x w' {| v_open := v_open v; v_failure := match v_failure v with None => Some s | Some first => Some first end |}.
Proof.
  intros R%reachable_inv V%(seen_lookup is_ok_status); [|exact R]. cbn. intro E. pose proof (FailWithoutAnnotation_ok is_ok_status w x address s R) as F.
  destruct (FailWithoutAnnotation _ _ _ _ _) as [w1| |]; cbn in E; try discriminate. injection E as <- <-. destruct F as (_ & _ & u & U & C). rewrite V in U. injection U as <-.
  split; [reflexivity|]. apply lookup_seen. rewrite C, Nat.eqb_refl. reflexivity.
Qed.
(** The first failure wins: once an object is failed, its status stays the same and ok() stays false after every sequence of operations (on this and
    other objects), unless the sequence contains a recovery, a reset, a replacement of the status, an assignment, a move or the destruction of this object. *)
Theorem C42_first_failure_wins w l w' x v s : reachable w -> seen x w v -> v_failure v = Some s ->
  existsb (replaces_failure x) l = false -> run l w = Good w' ->
  exists v', seen x w' v' /\ v_failure v' = Some s /\ ok x w' = Good false /\ get_status ok_status closed_status x w' = Good s.
Proof.
  intros R%reachable_inv V%(seen_lookup is_ok_status) F B E; [|exact R].
  destruct (sticky is_ok_status ok_status closed_status x w l w' v s R V F B E) as (v' & V' & F'). pose proof (lookup_seen ok_status closed_status _ _ _ V') as K.
  exists v'. split; [exact K|]. split; [exact F'|]. destruct K as (K1 & _ & _ & K4). rewrite F' in K1, K4. rewrite andb_false_r in K1. auto.
Qed.
(** Close() of an open object does what Done() does, closes the object, and returns true if and only if the object was not failed after Done(). *)
Theorem C42_close w w' x v done b : reachable w -> seen x w v -> v_open v = true -> exec (OClose x done) w = Good (w', b) ->
  exists w1 v1, run done w = Good w1 /\ seen x w1 v1 /\ b = good v1 /\ seen x w' {| v_open := false; v_failure := v_failure v1 |}.
Proof.
  intros R%reachable_inv V%(seen_lookup is_ok_status) O E; [|exact R]. rewrite exec_close in E. pose proof (lookup_seen ok_status closed_status _ _ _ V) as (_ & K & _). rewrite K, O in E. cbn in E.
  pose proof (run_safe is_ok_status ok_status closed_status done w R) as R1. destruct (run done w) as [w1| |]; cbn in E; try discriminate.
  pose proof (MarkClosed_ok is_ok_status w1 x R1) as M. rewrite E in M. destruct M as (_ & v1 & V1 & C & B). cbn in B, C.
  exists w1, v1. split; [reflexivity|]. split; [apply lookup_seen, V1|]. split; [exact B|]. apply lookup_seen. rewrite C, Nat.eqb_refl. reflexivity.
Qed.
(** Close() of a closed object does nothing (it does not run Done()) and returns what the previous Close() would. *)
Theorem C42_close_again w x v done : reachable w -> seen x w v -> v_open v = false -> exec (OClose x done) w = Good (w, good v).
Proof.
  intros R V O. rewrite exec_close. destruct V as (_ & K1 & K2 & _). rewrite K1, O. cbn [bind negb]. rewrite K2. reflexivity.
Qed.
(** A closed object stays closed unless it is reset, assigned to or destroyed. *)
Theorem C42_stays_closed w l w' x v : reachable w -> seen x w v -> v_open v = false -> existsb (reopens x) l = false -> run l w = Good w' ->
  exists v', seen x w' v' /\ v_open v' = false /\ ok x w' = Good false.
Proof.
  intros R%reachable_inv V%(seen_lookup is_ok_status) F B E; [|exact R].
  destruct (closed_sticky is_ok_status ok_status closed_status x w l w' v R V F B E) as (v' & V' & F'). pose proof (lookup_seen ok_status closed_status _ _ _ V') as K.
  exists v'. split; [exact K|]. split; [exact F'|]. destruct K as (K1 & _). rewrite F' in K1. exact K1.
Qed.
(** A move takes the state over and leaves the source closed and not failed; an assignment of an object to itself changes nothing. *)
Theorem C42_move w w' x y v b : reachable w -> seen y w v -> exec (OMoveConstruct x y) w = Good (w', b) \/ exec (OMoveAssign x y) w = Good (w', b) ->
  seen x w' v /\ (x <> y -> seen y w' {| v_open := false; v_failure := None |}).
Proof.
  intros R%reachable_inv V%(seen_lookup is_ok_status) E; [|exact R].
  assert (forall z, lookup z w' = if Nat.eqb z x then lookup y w else if Nat.eqb z y then Some closed_view else lookup z w) as L.
  { destruct E as [E|E]; cbn in E.
    - pose proof (MoveConstruct_ok is_ok_status w x y R) as M. destruct (MoveConstruct x y w); cbn in E; try discriminate. injection E as <- <-. apply M.
    - pose proof (MoveAssign_ok is_ok_status w x y R) as M. destruct (MoveAssign x y w); cbn in E; try discriminate. injection E as <- <-. apply M. }
  split; [apply lookup_seen; rewrite L, Nat.eqb_refl; exact V|]. intro N. apply lookup_seen. rewrite L, Nat.eqb_refl.
  destruct (Nat.eqb_spec y x); [congruence|reflexivity].
Qed.
(** Recovery keeps is_open(); a reset makes the object new; replacing the status replaces it. *)
Theorem C42_recovery w w' x v b : reachable w -> seen x w v -> exec (OMarkNotFailed x) w = Good (w', b) -> seen x w' {| v_open := v_open v; v_failure := None |}.
Proof.
  intros R%reachable_inv V%(seen_lookup is_ok_status) E; [|exact R]. cbn in E. pose proof (MarkNotFailed_ok is_ok_status w x R) as M.
  destruct (MarkNotFailed x w); cbn in E; try discriminate. injection E as <- <-. destruct M as (_ & u & U & C). rewrite V in U. injection U as <-.
  apply lookup_seen. rewrite C, Nat.eqb_refl. reflexivity.
Qed.
Theorem C42_reset w w' x closed b : reachable w -> exec (OReset x closed) w = Good (w', b) -> seen x w' {| v_open := negb closed; v_failure := None |}.
Proof.
  intros R%reachable_inv E. cbn in E. pose proof (Reset_ok is_ok_status w x closed R) as M. destruct (Reset x closed w); cbn in E; try discriminate. injection E as <- <-.
  apply lookup_seen. rewrite (proj2 M), Nat.eqb_refl. reflexivity.
Qed.
Theorem C42_set_status w w' x v s b : reachable w -> seen x w v -> exec (OSetStatus x s) w = Good (w', b) ->
  v_failure v <> None /\ seen x w' {| v_open := v_open v; v_failure := Some s |}.
Proof.
  intros R%reachable_inv V%(seen_lookup is_ok_status) E; [|exact R]. cbn in E. pose proof (SetStatus_ok is_ok_status w x s R) as M.
  destruct (SetStatus _ x s w); cbn in E; try discriminate. injection E as <- <-. destruct M as (_ & _ & u & s0 & U & F & C). rewrite V in U. injection U as <-.
  split; [congruence|]. apply lookup_seen. rewrite C, Nat.eqb_refl. reflexivity.
Qed.
(** Operations on other objects do not change what is seen of an object. *)
Theorem C42_other_objects w w' x v o b : reachable w -> seen x w v -> mentions x o = false -> exec o w = Good (w', b) -> seen x w' v.
Proof.
  intros R%reachable_inv V%(seen_lookup is_ok_status) N E; [|exact R]. pose proof (unrelated_exec is_ok_status ok_status closed_status x o w R N) as M.
  rewrite E in M. cbn in M. apply lookup_seen. congruence.
Qed.
(** StatusOrAnnotate() is the failure of the object if it is not OK, and the given status with an annotation otherwise. *)
Theorem C42_status_or_annotate w x v annotate other : seen x w v ->
  StatusOrAnnotate ok_status closed_status x annotate other w =
    Good (match v_failure v with Some s => s | None => if v_open v then annotate other else closed_status end).
Proof.
  intros (A & _ & _ & D). unfold StatusOrAnnotate. rewrite A. cbn [bind]. rewrite D. destruct (v_failure v), (v_open v); reflexivity.
Qed.
End WithStatus.

(** Statuses are numbers, 0 is OK, 1 is "Object closed".  An object fails, fails again during Close(), is moved, and the
    object moved from fails for itself. *)
Example C42_example :
  let f := run (fun s => s =? 0) 0 1 in
  exists w w', f [OConstruct 0 false; OConstruct 1 false; OFail 0 100 (Z.mul 10) 7] empty_world = Good w /\
    seen 0 1 0 w {| v_open := true; v_failure := Some 70 |} /\
    f [OClose 0 [OFail 0 200 (Z.mul 10) 8; OFailWithoutAnnotation 1 200 9]; OMoveAssign 1 0; OFailWithoutAnnotation 0 200 5] w = Good w' /\
    existsb (replaces_failure 0) [OClose 0%nat [OFail 0 200 (Z.mul 10) 8; OFailWithoutAnnotation 1 200 9]] = false /\
    seen 0 1 1 w' {| v_open := false; v_failure := Some 70 |} /\ seen 0 1 0 w' {| v_open := false; v_failure := Some 5 |}.
Proof. cbv zeta. eexists _, _. repeat (split; [reflexivity|]). split; [|split; [reflexivity|split; [reflexivity|split]]]; unfold seen; repeat split. Qed.
Print Assumptions C42_state.
Print Assumptions C42_memory.
Print Assumptions C42_progress.
Print Assumptions C42_fail.
Print Assumptions C42_fail_without_annotation.
Print Assumptions C42_first_failure_wins.
Print Assumptions C42_close.
Print Assumptions C42_close_again.
Print Assumptions C42_stays_closed.
Print Assumptions C42_move.
Print Assumptions C42_recovery.
Print Assumptions C42_reset.
Print Assumptions C42_set_status.
Print Assumptions C42_other_objects.
Print Assumptions C42_status_or_annotate.
