(** Model of riegeli/base/{object.h,object.cc}: class ObjectState, and the part of class Object which deals with it.

    Objects live in a [world]: [status_ptr x] is the member status_ptr_ of the object [x] ([None] if there is no such object now), and
    [heap] holds the structures FailedStatus which were allocated by [new] and not yet deleted.
    Simplifications: OnFail() (which in derived classes touches only their own members) and GetTypeId() are not modelled;
    AnnotateStatusImpl() is an arbitrary function given with each call (it may depend on members of the derived class); Done() is an
    arbitrary list of operations given with each call of Close(). *)
From Verif Require Import Base.Bytes.

Section WithStatus.
(** absl::Status, [ok_status] is absl::OkStatus(), [closed_status] is absl::FailedPreconditionError("Object closed") *)
Context {status : Type}.
Variable is_ok_status : status -> bool.
Variables ok_status closed_status : status.

(** object.h:106-111 FailedStatus *)
Record FailedStatus := { fs_closed : bool; fs_status : status }.
(** object.h:113-114 *)
Definition kOk : Z := 0.
Definition kClosedSuccessfully : Z := 1.
Record world := { heap : Z -> option FailedStatus; status_ptr : nat -> option Z }.

(** A violated precondition (a RIEGELI_ASSERT, or a use of an object which does not exist), or an access to memory which is not allocated *)
Inductive outcome (A : Type) := Good (a : A) | Misuse | BadMemory.
Arguments Good {A} a.
Arguments Misuse {A}.
Arguments BadMemory {A}.
Definition bind {A B} (x : outcome A) (f : A -> outcome B) : outcome B :=
  match x with Good a => f a | Misuse => Misuse | BadMemory => BadMemory end.

Definition set_ptr (x : nat) (p : option Z) (w : world) : world :=
  {| heap := heap w; status_ptr := fun y => if Nat.eqb y x then p else status_ptr w y |}.
Definition set_heap (p : Z) (c : option FailedStatus) (w : world) : world :=
  {| heap := fun q => if q =? p then c else heap w q; status_ptr := status_ptr w |}.
Definition get_ptr (x : nat) (w : world) : outcome Z := match status_ptr w x with Some p => Good p | None => Misuse end.
Definition deref (p : Z) (w : world) : outcome FailedStatus := match heap w p with Some c => Good c | None => BadMemory end.

(** object.cc:62-67 DeleteStatus *)
Definition DeleteStatus (p : Z) (w : world) : outcome world :=
  if negb (p =? kOk) && negb (p =? kClosedSuccessfully) then
    match heap w p with None => BadMemory | Some _ => Good (set_heap p None w) end
  else Good w.
(** object.h:301 *)
Definition ok (x : nat) (w : world) : outcome bool := bind (get_ptr x w) (fun p => Good (p =? kOk)).
(** object.h:303-307 *)
Definition is_open (x : nat) (w : world) : outcome bool :=
  bind (get_ptr x w) (fun p =>
  if p =? kOk then Good true else if p =? kClosedSuccessfully then Good false else bind (deref p w) (fun c => Good (negb (fs_closed c)))).
(** object.h:309-311 *)
Definition not_failed (x : nat) (w : world) : outcome bool :=
  bind (get_ptr x w) (fun p => Good ((p =? kOk) || (p =? kClosedSuccessfully))).
(** object.cc:69-75 *)
Definition get_status (x : nat) (w : world) : outcome status :=
  bind (get_ptr x w) (fun p =>
  if p =? kOk then Good ok_status else if p =? kClosedSuccessfully then Good closed_status else bind (deref p w) (fun c => Good (fs_status c))).
(** object.cc:29-33, also for [x = that] *)
Definition MoveAssign (x that : nat) (w : world) : outcome world :=
  bind (get_ptr that w) (fun p =>
  let w := set_ptr that (Some kClosedSuccessfully) w in
  bind (get_ptr x w) (fun old => DeleteStatus old (set_ptr x (Some p) w))).
(** object.h:298-299 *)
Definition MoveConstruct (x that : nat) (w : world) : outcome world :=
  match status_ptr w x with
  | Some _ => Misuse
  | None => bind (get_ptr that w) (fun p => Good (set_ptr x (Some p) (set_ptr that (Some kClosedSuccessfully) w)))
  end.
(** object.h:43, 46 *)
Definition Construct (x : nat) (closed : bool) (w : world) : outcome world :=
  match status_ptr w x with
  | Some _ => Misuse
  | None => Good (set_ptr x (Some (if closed then kClosedSuccessfully else kOk)) w)
  end.
(** object.cc:35 *)
Definition Destroy (x : nat) (w : world) : outcome world := bind (get_ptr x w) (fun p => DeleteStatus p (set_ptr x None w)).
(** object.cc:37-41 *)
Definition Reset (x : nat) (closed : bool) (w : world) : outcome world :=
  bind (get_ptr x w) (fun p => DeleteStatus p (set_ptr x (Some (if closed then kClosedSuccessfully else kOk)) w)).
(** object.cc:43-50 *)
Definition MarkClosed (x : nat) (w : world) : outcome (world * bool) :=
  bind (get_ptr x w) (fun p =>
  if (p =? kOk) || (p =? kClosedSuccessfully) then Good (set_ptr x (Some kClosedSuccessfully) w, true)
  else bind (deref p w) (fun c => Good (set_heap p (Some {| fs_closed := true; fs_status := fs_status c |}) w, false))).
(** object.cc:52-55 *)
Definition MarkNotFailed (x : nat) (w : world) : outcome world :=
  bind (is_open x w) (fun o =>
  bind (get_ptr x w) (fun p => DeleteStatus p (set_ptr x (Some (if o then kOk else kClosedSuccessfully)) w))).
(** object.cc:77-85 ObjectState::Fail.  [fresh] is the address returned by [new]; it is not the address of anything alive *)
Definition StateFail (x : nat) (fresh : Z) (s : status) (w : world) : outcome world :=
  if is_ok_status s then Misuse
  else bind (get_ptr x w) (fun p =>
  if (p =? kOk) || (p =? kClosedSuccessfully) then
    match heap w fresh with
    | Some _ => Misuse
    | None => if fresh <=? 1 then Misuse
              else Good (set_ptr x (Some fresh) (set_heap fresh (Some {| fs_closed := p =? kClosedSuccessfully; fs_status := s |}) w))
    end
  else Good w).
(** object.cc:87-94, 113-119 *)
Definition SetStatus (x : nat) (s : status) (w : world) : outcome world :=
  if is_ok_status s then Misuse
  else bind (get_ptr x w) (fun p =>
  if (p =? kOk) || (p =? kClosedSuccessfully) then Misuse
  else bind (deref p w) (fun c => Good (set_heap p (Some {| fs_closed := fs_closed c; fs_status := s |}) w))).
(** object.cc:125-133 *)
Definition FailWithoutAnnotation (x : nat) (fresh : Z) (s : status) (w : world) : outcome world :=
  if is_ok_status s then Misuse
  else bind (not_failed x w) (fun nf => if negb nf then Good w else StateFail x fresh s w).
(** object.cc:104-111 *)
Definition Fail (x : nat) (fresh : Z) (annotate : status -> status) (s : status) (w : world) : outcome world :=
  if is_ok_status s then Misuse
  else bind (not_failed x w) (fun nf =>
  if negb nf then Good w
  else bind (StateFail x fresh s w) (fun w => bind (get_status x w) (fun s => SetStatus x (annotate s) w))).
(** object.cc:135-138 *)
Definition StatusOrAnnotate (x : nat) (annotate : status -> status) (other : status) (w : world) : outcome status :=
  bind (ok x w) (fun o => if negb o then get_status x w else Good (annotate other)).

(** What may be done to objects.  [OClose x done]: Close() of an object whose Done() does [done] *)
Inductive op :=
| OConstruct (x : nat) (closed : bool)
| OMoveConstruct (x that : nat)
| OMoveAssign (x that : nat)
| ODestroy (x : nat)
| OReset (x : nat) (closed : bool)
| OMarkNotFailed (x : nat)
| OSetStatus (x : nat) (s : status)
| OFail (x : nat) (fresh : Z) (annotate : status -> status) (s : status)
| OFailWithoutAnnotation (x : nat) (fresh : Z) (s : status)
| OClose (x : nat) (done : list op).
(** The result of the function with the new world; [true] for a function which returns [void] *)
Fixpoint exec (o : op) (w : world) {struct o} : outcome (world * bool) :=
  let void (r : outcome world) := bind r (fun w => Good (w, true)) in
  match o with
  | OConstruct x closed => void (Construct x closed w)
  | OMoveConstruct x that => void (MoveConstruct x that w)
  | OMoveAssign x that => void (MoveAssign x that w)
  | ODestroy x => void (Destroy x w)
  | OReset x closed => void (Reset x closed w)
  | OMarkNotFailed x => void (MarkNotFailed x w)
  | OSetStatus x s => void (SetStatus x s w)
  | OFail x fresh annotate s => bind (Fail x fresh annotate s w) (fun w => Good (w, false))
  | OFailWithoutAnnotation x fresh s => bind (FailWithoutAnnotation x fresh s w) (fun w => Good (w, false))
  | OClose x done =>
      (* object.cc:96-100 Close *)
      bind (is_open x w) (fun o =>
      if negb o then bind (not_failed x w) (fun nf => Good (w, nf))
      else bind ((fix run (l : list op) (w : world) : outcome world :=
                    match l with [] => Good w | o :: l => bind (exec o w) (fun r => run l (fst r)) end) done w) (MarkClosed x))
  end.
Fixpoint run (l : list op) (w : world) : outcome world :=
  match l with [] => Good w | o :: l => bind (exec o w) (fun r => run l (fst r)) end.
Definition empty_world : world := {| heap := fun _ => None; status_ptr := fun _ => None |}.
End WithStatus.
Arguments Good {A} a.
Arguments Misuse {A}.
Arguments BadMemory {A}.
