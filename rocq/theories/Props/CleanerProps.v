(** C51: BackgroundCleaner. *)
From Verif Require Import Base.Bytes Model.Cleaner Spec.CleanerSpec Proof.CleanerList Proof.CleanerProof Proof.CleanerThread Proof.CleanerLive.

(** Any interleaving: what is observed is a behavior of the specification; no call fails *)
Theorem Cleaner_refines : forall acts s evs, runs init acts s evs ->
  spec_run start evs (abs_of s) /\ forall a, allowed s a -> act s a <> Fail.
Proof.
  intros acts s evs R. destruct (runs_ok _ _ _ _ R init_inv) as (HI & SR). split; [exact SR|]. intros a A F. pose proof (act_ok s a HI A) as K. now rewrite F in K.
Qed.
(** Calls of the user wait only in CancelCleaning() and Unregister(), for a cleaning of this cleanee which has begun and not ended *)
Theorem Cleaner_blocking : forall acts s evs a, runs init acts s evs -> allowed s a -> act s a = Blocked ->
  match a with
  | ACancel i | AUnregister i => exists c p, reg (abs_of s) i = Some (c, p) /\ running (abs_of s) = Some c
  | AThread _ _ | ADestroyed => True
  | ARegister _ | ASchedule _ _ | ADestroy => False
  end.
Proof.
  intros acts s evs a R A B. assert (HI : Inv s) by exact (proj1 (runs_ok _ _ _ _ R init_inv)). now apply (blocked_ok s a).
Qed.
(** A pending cleaning which is due begins: at most two steps of the background thread are needed, whatever has happened before;
    the one which begins is the earliest (Cleaner_refines).  When a cleaning ends, one step is enough *)
Theorem Cleaner_timely : forall acts s evs i c d t, runs init acts s evs -> reg (abs_of s) i = Some (c, Some d) -> d <= t ->
  exists n s' evs' c', (n <= 2)%nat /\ runs s (repeat (AThread t t) n) s' evs' /\ In (EvCleanBegin c' t) evs'.
Proof.
  intros acts s evs i c d t R P L. assert (HI : Inv s) by exact (proj1 (runs_ok _ _ _ _ R init_inv)). now apply (timely s i c d t).
Qed.
(** The background thread sleeps only until the earliest pending cleaning: if it is blocked, none is due *)
Theorem Cleaner_awake : forall acts s evs t, runs init acts s evs -> act s (AThread t t) = Blocked -> forall i c d, reg (abs_of s) i = Some (c, Some d) -> t < d.
Proof.
  intros acts s evs t R B i c d P. assert (HI : Inv s) by exact (proj1 (runs_ok _ _ _ _ R init_inv)). exact (awake s t HI B i c d P).
Qed.
(** The destructor does not wait for deadlines: one step of the background thread is enough, and nothing is left running *)
Theorem Cleaner_destroy : forall acts s evs t, runs init acts s evs -> dying s = true ->
  exists n s', (n <= 1)%nat /\ runs s (repeat (AThread t t) n) s' [] /\ act s' ADestroyed = Done s' [EvDestroyed] /\ forall t', act s' (AThread t' t') = Blocked.
Proof.
  intros acts s evs t R D. assert (HI : Inv s) by exact (proj1 (runs_ok _ _ _ _ R init_inv)). now apply destroy_ok.
Qed.
(** In terms of what is observed: between the end of CancelCleaning() or Unregister() and the next ScheduleCleaning() of the token no cleaning begins on its behalf;
    here for a cleanee with one token *)
Theorem Cleaner_cancelled : forall a i c evs a', spec_run a evs a' -> reg a i = Some (c, None) -> running a <> Some c ->
  (forall j p, reg a j = Some (c, p) -> j = i) -> (forall ev, In ev evs -> match ev with EvRegister _ c' => c' <> c | EvSchedule j d => j <> i | EvUnregister j => j <> i | _ => True end) ->
  forall now, ~ In (EvCleanBegin c now) evs.
Proof. exact cancelled. Qed.

(** Examples *)
Definition example : list action :=
  [ARegister 100; ARegister 200; ASchedule 0 (Some 50); ASchedule 1 (Some 40); AThread 0 0; ASchedule 0 (Some 30); AThread 0 0; AThread 35 35; AThread 36 36; ACancel 0; AThread 41 41; AThread 42 42; AUnregister 0; AUnregister 1; ADestroy; ADestroyed].
Fixpoint exec (s : st) (l : list action) : option (st * list event) :=
  match l with [] => Some (s, []) | a :: l => match act s a with Done s' evs => match exec s' l with Some (s'', evs') => Some (s'', evs ++ evs') | None => None end | _ => None end end.
Example example_events : option_map snd (exec init example) =
  Some [EvRegister 0 100; EvRegister 1 200; EvSchedule 0 (Some 50); EvSchedule 1 (Some 40); EvSchedule 0 (Some 30); EvCleanBegin 100 35; EvCleanEnd; EvCancel 0; EvCleanBegin 200 41; EvCleanEnd; EvUnregister 0; EvUnregister 1; EvDestroyed].
Proof. vm_compute. reflexivity. Qed.
Example example_runs : exists s evs, runs init example s evs.
Proof. eexists _, _. unfold example. repeat (eapply runs_cons; [first [exact Logic.I|reflexivity|split; [reflexivity|discriminate]|split; [reflexivity|intros; reflexivity]]|vm_compute; reflexivity|]). apply runs_nil. Qed.
(** A call which waits: cancelling while the cleanee is being cleaned *)
Example example_blocked : match exec init [ARegister 100; ASchedule 0 (Some 5); AThread 0 0; AThread 7 7] with Some (s, _) => act s (ACancel 0) = Blocked /\ act s (ASchedule 0 (Some 9)) <> Blocked | None => False end.
Proof. vm_compute. split; [reflexivity|discriminate]. Qed.

Print Assumptions Cleaner_refines.
Print Assumptions Cleaner_blocking.
Print Assumptions Cleaner_timely.
Print Assumptions Cleaner_awake.
Print Assumptions Cleaner_destroy.
Print Assumptions Cleaner_cancelled.
