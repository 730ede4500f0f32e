(** What a user of BackgroundCleaner relies on, without lists, iterators and mutexes. *)
From Verif Require Import Base.Bytes Model.Cleaner.

(** For each token its cleanee and when its cleaning is due, if it is pending; and which cleanee is being cleaned *)
Record abs := Abs { reg : Z -> option (Z * option Z); running : option Z }.
Definition start : abs := Abs (fun _ => None) None.
Definition updated (a a' : abs) (i : Z) (v : option (Z * option Z)) : Prop := forall j, reg a' j = if j =? i then v else reg a j.
Definition earliest (p d : option Z) : option Z := match p, d with Some x, Some y => Some (Z.min x y) | None, _ => d | _, None => p end.
Definition spec_step (a : abs) (ev : event) (a' : abs) : Prop :=
  match ev with
  | EvRegister i c => reg a i = None /\ updated a a' i (Some (c, None)) /\ running a' = running a
  | EvSchedule i d => exists c p, reg a i = Some (c, p) /\ updated a a' i (Some (c, earliest p d)) /\ running a' = running a
  | EvCancel i => exists c p, reg a i = Some (c, p) /\ running a <> Some c /\ updated a a' i (Some (c, None)) /\ running a' = running a
  | EvUnregister i => exists c p, reg a i = Some (c, p) /\ running a <> Some c /\ updated a a' i None /\ running a' = running a
  | EvCleanBegin c now => running a = None /\ running a' = Some c /\
      exists i d, reg a i = Some (c, Some d) /\ d <= now /\ (forall j c' d', reg a j = Some (c', Some d') -> d <= d') /\ updated a a' i (Some (c, None))
  | EvCleanEnd => running a <> None /\ running a' = None /\ forall j, reg a' j = reg a j
  | EvDestroyed => running a = None /\ (forall j, reg a j = None) /\ (forall j, reg a' j = reg a j) /\ running a' = running a
  end.
Inductive spec_run : abs -> list event -> abs -> Prop :=
| spec_nil : forall a a', (forall j, reg a' j = reg a j) -> running a' = running a -> spec_run a [] a'
| spec_cons : forall a ev a' evs a'', spec_step a ev a' -> spec_run a' evs a'' -> spec_run a (ev :: evs) a''.

(** What the state stands for *)
Definition abs_of (s : st) : abs := Abs (fun i => option_map (fun e => (cleanee e, deadline e)) (deref (entries s) i)) (current s).
(** What the user may do: use tokens of registered cleanees; destroy when all are unregistered, and nothing afterwards *)
Definition allowed (s : st) (a : action) : Prop :=
  match a with
  | ARegister _ => dying s = false
  | ASchedule i _ | ACancel i | AUnregister i => dying s = false /\ reg (abs_of s) i <> None
  | AThread _ _ => True
  | ADestroy => dying s = false /\ forall i, reg (abs_of s) i = None
  | ADestroyed => dying s = true
  end.
(** Any interleaving of calls and of the background thread, and what is observed *)
Inductive runs : st -> list action -> st -> list event -> Prop :=
| runs_nil : forall s, runs s [] s []
| runs_cons : forall s a s' evs acts s'' evs', allowed s a -> act s a = Done s' evs -> runs s' acts s'' evs' -> runs s (a :: acts) s'' (evs ++ evs').
