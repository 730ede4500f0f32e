(** Model of riegeli/base/background_cleaning.{h,cc}: BackgroundCleaner.

    The cleaner is shared by any number of threads.  Everything between taking and releasing mutex_ is one step; Await() and
    AwaitWithDeadline() release it, so that what follows them is a step with a guard.  The background thread has its own state.
    An iterator of the list is the identity of the entry, or [None] for end().  [None] as a deadline is absl::InfiniteFuture(). *)
From Verif Require Import Base.Bytes.

(** background_cleaning.h:47-53 *)
Record entry := Entry { eid : Z; cleanee : Z; deadline : option Z }.
(** Where the background thread is: not running; scheduled in the thread pool; in AwaitWithDeadline() with a deadline; in Clean() *)
Inductive tstate := TNone | TScheduled | TWaiting (d : option Z) | TCleaning.
(** background_cleaning.h:135-155; [fresh] is the identity of the next entry, [dying]: the destructor waits *)
Record st := St { entries : list entry; next : option Z; current : option Z; reduced : bool; no_thread : bool; thread : tstate; fresh : Z; dying : bool }.
Definition init : st := St [] None None false true TNone 0 false.

(** ** std::list; [None] of the outer option is undefined behavior *)
Definition it_eqb (a b : option Z) : bool := match a, b with Some x, Some y => x =? y | None, None => true | _, _ => false end.
Definition begin (l : list entry) : option Z := match l with [] => None | e :: _ => Some (eid e) end.
Definition deref (l : list entry) (i : Z) : option entry := find (fun e => eid e =? i) l.
(** ++iter *)
Fixpoint after (l : list entry) (i : Z) : option (option Z) := match l with [] => None | e :: l => if eid e =? i then Some (begin l) else after l i end.
(** --iter *)
Fixpoint before (l : list entry) (it : option Z) : option Z := match l with [] => None | e :: l => if it_eqb (begin l) it then Some (eid e) else before l it end.
Definition erase (l : list entry) (i : Z) : list entry := filter (fun e => negb (eid e =? i)) l.
Fixpoint insert (l : list entry) (pos : option Z) (x : entry) : option (list entry) :=
  if it_eqb (begin l) pos then Some (x :: l) else match l with [] => None | e :: l => option_map (cons e) (insert l pos x) end.
(** splice(pos, *this, i): does nothing if the position is the element or follows it *)
Definition splice (l : list entry) (pos : option Z) (i : Z) : option (list entry) :=
  if it_eqb pos (Some i) then Some l else match deref l i with Some e => insert (erase l i) pos e | None => None end.
Definition set_deadline (l : list entry) (i : Z) (d : option Z) : list entry := map (fun e => if eid e =? i then Entry (eid e) (cleanee e) d else e) l.
(** deadline <= d, for a d before InfiniteFuture() *)
Definition le_time (a : option Z) (d : Z) : bool := match a with Some x => x <=? d | None => false end.

(** ** What is observable *)
Inductive event := EvRegister (token c : Z) | EvSchedule (token : Z) (d : option Z) | EvCancel (token : Z) | EvUnregister (token : Z)
  | EvCleanBegin (c now : Z) | EvCleanEnd | EvDestroyed.
Inductive result := Blocked | Fail | Done (s : st) (evs : list event).

(** background_cleaning.cc:29-34 *)
Definition Register (s : st) (c : Z) : result :=
  Done (St (Entry (fresh s) c None :: entries s) (next s) (current s) (reduced s) (no_thread s) (thread s) (fresh s + 1) (dying s)) [EvRegister (fresh s) c].
(** background_cleaning.cc:57-68: CancelCleaningInternal() waits while the cleanee is being cleaned *)
Definition not_current (s : st) (e : entry) : bool := negb (it_eqb (current s) (Some (cleanee e))).
(** background_cleaning.cc:36-41 *)
Definition Unregister (s : st) (i : Z) : result :=
  match deref (entries s) i with
  | None => Fail
  | Some e =>
    if not_current s e then
      match (if it_eqb (next s) (Some i) then after (entries s) i else Some (next s)) with
      | Some n => Done (St (erase (entries s) i) n (current s) (reduced s) (no_thread s) (thread s) (fresh s) (dying s)) [EvUnregister i]
      | None => Fail end
    else Blocked
  end.
(** background_cleaning.cc:43-54 *)
Definition CancelCleaning (s : st) (i : Z) : result :=
  match deref (entries s) i with
  | None => Fail
  | Some e =>
    if not_current s e then
      match deadline e with
      | None => Done s [EvCancel i]
      | Some _ =>
        let k (l : list entry) (n : option Z) := Done (St (set_deadline l i None) n (current s) (reduced s) (no_thread s) (thread s) (fresh s) (dying s)) [EvCancel i] in
        if it_eqb (next s) (Some i) then match after (entries s) i with Some n => k (entries s) n | None => Fail end
        else match splice (entries s) (next s) i with Some l => k l (next s) | None => Fail end
      end
    else Blocked
  end.
(** background_cleaning.cc:82-98: the loop which moves [iter] backwards; the position, and whether it is next_ *)
Fixpoint place (fuel : nat) (l : list entry) (nxt : option Z) (d : Z) (iter : option Z) : option (option Z * bool) :=
  match fuel with
  | O => None
  | S fuel =>
    if it_eqb iter nxt then Some (iter, true)
    else match before l iter with
      | None => None
      | Some p => match deref l p with
        | None => None
        | Some e => if le_time (deadline e) d then Some (iter, false) else place fuel l nxt d (Some p)
        end
      end
  end.
(** background_cleaning.h:159-163, background_cleaning.cc:70-114 *)
Definition ScheduleCleaning (s : st) (i : Z) (d : option Z) : result :=
  match d with
  | None => Done s [EvSchedule i None]
  | Some d =>
    match deref (entries s) i with
    | None => Fail
    | Some e =>
      if le_time (deadline e) d then Done s [EvSchedule i (Some d)]
      else match place (S (length (entries s))) (entries s) (next s) d (match deadline e with None => None | Some _ => Some i end) with
        | None => Fail
        | Some (pos, hit) =>
          let n := if hit then Some i else next s in
          match splice (entries s) pos i with
          | None => Fail
          | Some l =>
            if it_eqb n None then Fail (* RIEGELI_ASSERT *)
            else Done (St (set_deadline l i (Some d)) n (current s) (if hit then true else reduced s) false
                          (if no_thread s then TScheduled else thread s) (fresh s) (dying s)) [EvSchedule i (Some d)]
          end
        end
    end
  end.

(** ** BackgroundThread(): background_cleaning.cc:116-141 and the task, 109-113 *)
Definition exit_thread (s : st) (evs : list event) : result := Done (St (entries s) (next s) (current s) (reduced s) true TNone (fresh s) (dying s)) evs.
(** 121-124: deadline_reduced_ = false; AwaitWithDeadline() *)
Definition wait (s : st) (evs : list event) : result :=
  match next s with
  | None => Fail
  | Some n => match deref (entries s) n with
    | None => Fail
    | Some e => Done (St (entries s) (next s) (current s) false (no_thread s) (TWaiting (deadline e)) (fresh s) (dying s)) evs
    end
  end.
(** 128-135: one turn of the loop until Clean() is called *)
Definition clean (s : st) (now : Z) (evs : list event) : result :=
  match next s with
  | None => Fail
  | Some n => match deref (entries s) n with
    | None => Fail
    | Some e =>
      if negb (le_time (deadline e) now) then wait s evs
      else match after (entries s) n with
        | None => Fail
        | Some n' => Done (St (set_deadline (entries s) n None) n' (Some (cleanee e)) (reduced s) (no_thread s) TCleaning (fresh s) (dying s)) (evs ++ [EvCleanBegin (cleanee e) now])
        end
    end
  end.
(** From one release of the mutex to the next one; [wake] is the time when the mutex considers the deadline, [now] is TimeNow() *)
Definition Thread (s : st) (wake now : Z) : result :=
  match thread s with
  | TNone => Blocked
  | TScheduled => match next s with None => exit_thread s [] | Some _ => wait s [] end
  | TWaiting d =>
    if reduced s || le_time d wake then
      match next s with
      | None => exit_thread s []
      | Some _ => if reduced s then wait s [] else clean s now []
      end
    else Blocked
  | TCleaning =>
    let s := St (entries s) (next s) None (reduced s) (no_thread s) (thread s) (fresh s) (dying s) in
    match next s with None => exit_thread s [EvCleanEnd] | Some _ => clean s now [EvCleanEnd] end
  end.
(** background_cleaning.cc:143-151: until Await(), and after it *)
Definition Destroy (s : st) : result :=
  match entries s with
  | [] => Done (St (entries s) (next s) (current s) true (no_thread s) (thread s) (fresh s) true) []
  | _ :: _ => Fail (* RIEGELI_CHECK *)
  end.
Definition Destroyed (s : st) : result := if no_thread s then Done s [EvDestroyed] else Blocked.

(** ** Any interleaving *)
Inductive action := ARegister (c : Z) | ASchedule (i : Z) (d : option Z) | ACancel (i : Z) | AUnregister (i : Z) | AThread (wake now : Z) | ADestroy | ADestroyed.
Definition act (s : st) (a : action) : result :=
  match a with
  | ARegister c => Register s c | ASchedule i d => ScheduleCleaning s i d | ACancel i => CancelCleaning s i | AUnregister i => Unregister s i
  | AThread wake now => Thread s wake now | ADestroy => Destroy s | ADestroyed => Destroyed s
  end.
