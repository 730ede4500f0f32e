(** What a user of an object sees, for Props/ObjectProps.v *)
From Verif Require Import Base.Bytes Model.Object.

Section WithStatus.
Context {status : Type}.
Variable is_ok_status : status -> bool.
Variables ok_status closed_status : status.
Notation exec := (exec is_ok_status ok_status closed_status).
Notation run := (run is_ok_status ok_status closed_status).

(** What can be observed of an object: is it open, and what it failed with *)
Record view := { v_open : bool; v_failure : option status }.
(** The object [x] exists in [w], and its functions ok(), is_open(), not_failed() and status() are those of [v] *)
Definition seen (x : nat) (w : world) (v : view) : Prop :=
  ok x w = Good (v_open v && match v_failure v with None => true | Some _ => false end) /\
  is_open x w = Good (v_open v) /\
  not_failed x w = Good (match v_failure v with None => true | Some _ => false end) /\
  get_status ok_status closed_status x w =
    Good (match v_failure v with Some s => s | None => if v_open v then ok_status else closed_status end).

(** States which some history leads to *)
Definition reachable (w : world) : Prop := exists history, run history empty_world = Good w.

(** Operations (possibly inside of Done()) after which the failure of [x] may be a different one: [x] is destroyed, moved, assigned to,
    reset, marked as not failed, or its status is replaced *)
Fixpoint replaces_failure (x : nat) (o : @op status) : bool :=
  match o with
  | OConstruct _ _ | OFail _ _ _ _ | OFailWithoutAnnotation _ _ _ => false
  | OMoveConstruct _ y => Nat.eqb x y
  | OMoveAssign y z => Nat.eqb x y || Nat.eqb x z
  | ODestroy y | OReset y _ | OMarkNotFailed y | OSetStatus y _ => Nat.eqb x y
  | OClose _ done => existsb (replaces_failure x) done
  end.
(** Operations which may open [x] again *)
Fixpoint reopens (x : nat) (o : @op status) : bool :=
  match o with
  | OConstruct _ _ | OFail _ _ _ _ | OFailWithoutAnnotation _ _ _ | OMoveConstruct _ _ | OMarkNotFailed _ | OSetStatus _ _ => false
  | OMoveAssign y _ | ODestroy y | OReset y _ => Nat.eqb x y
  | OClose _ done => existsb (reopens x) done
  end.
(** Operations which mention [x] *)
Fixpoint mentions (x : nat) (o : @op status) : bool :=
  match o with
  | OConstruct y _ | OFail y _ _ _ | OFailWithoutAnnotation y _ _ | ODestroy y | OReset y _ | OMarkNotFailed y | OSetStatus y _ => Nat.eqb x y
  | OMoveConstruct y z | OMoveAssign y z => Nat.eqb x y || Nat.eqb x z
  | OClose y done => Nat.eqb x y || existsb (mentions x) done
  end.
(** The documented preconditions; [address] stands for what [new] returns, which is not in use *)
Definition exists_in (w : @world status) (x : nat) : Prop := exists p, status_ptr w x = Some p.
Definition permitted (w : @world status) (o : op) : Prop :=
  match o with
  | OConstruct x _ => ~ exists_in w x
  | OMoveConstruct x y => ~ exists_in w x /\ exists_in w y
  | OMoveAssign x y => exists_in w x /\ exists_in w y
  | ODestroy x | OReset x _ | OMarkNotFailed x => exists_in w x
  | OSetStatus x s => exists_in w x /\ not_failed x w = Good false /\ is_ok_status s = false
  | OFail x address annotate s => exists_in w x /\ heap w address = None /\ 1 < address /\ is_ok_status s = false /\ is_ok_status (annotate s) = false
  | OFailWithoutAnnotation x address s => exists_in w x /\ heap w address = None /\ 1 < address /\ is_ok_status s = false
  | OClose x done => exists_in w x /\ (is_open x w = Good true -> exists w1, run done w = Good w1 /\ exists_in w1 x)
  end.
End WithStatus.
