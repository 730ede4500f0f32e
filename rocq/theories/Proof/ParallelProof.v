(** The parallel writer: what every schedule does is what happens when each request is performed at once. *)
From Verif Require Import Base.Bytes Model.Endian Model.Block Model.Chunk Model.ChunkWriter Model.SimpleChunk Model.RecordWriter Model.ParallelWriter.

Lemma nth_set_nth_same {X} (l : list X) : forall n x, (n < length l)%nat -> nth_error (set_nth n x l) n = Some x.
Proof. induction l as [|y l IH]; intros [|n] x H; cbn in *; try lia; [reflexivity|apply IH; lia]. Qed.
Lemma nth_set_nth_other {X} (l : list X) : forall n m x, n <> m -> nth_error (set_nth n x l) m = nth_error l m.
Proof. induction l as [|y l IH]; intros [|n] [|m] x H; cbn; try congruence. apply IH. congruence. Qed.
Lemma length_set_nth {X} (l : list X) : forall n x, length (set_nth n x l) = length l.
Proof. induction l as [|y l IH]; intros [|n] x; cbn; congruence. Qed.
Lemma Forall_set_nth {X} (P : X -> Prop) (l : list X) : forall n x, Forall P l -> P x -> Forall P (set_nth n x l).
Proof. induction l as [|y l IH]; intros [|n] x F H; cbn; inversion F; subst; constructor; auto. Qed.
Lemma Forall_remove_nth {X} (P : X -> Prop) (l : list X) : forall n, Forall P l -> Forall P (remove_nth n l).
Proof. induction l as [|y l IH]; intros [|n] F; cbn; inversion F; subst; try assumption; constructor; auto. Qed.
Lemma nth_snoc {X} (l : list X) x : nth_error (l ++ [x]) (length l) = Some x.
Proof. rewrite nth_error_app2, Nat.sub_diag by lia. reflexivity. Qed.
Lemma nth_error_app_some {X} (l l' : list X) n x : nth_error l n = Some x -> nth_error (l ++ l') n = Some x.
Proof. intros H. rewrite nth_error_app1; [exact H|]. apply nth_error_Some. congruence. Qed.
Lemma nth_snoc_inv {X} (l : list X) x n y : nth_error (l ++ [x]) n = Some y -> nth_error l n = Some y \/ n = length l /\ y = x.
Proof.
  intros H. destruct (Nat.lt_ge_cases n (length l)) as [L|L]; [left; rewrite nth_error_app1 in H by lia; exact H|right].
  rewrite nth_error_app2 in H by lia. destruct (n - length l)%nat as [|k] eqn:E; cbn in H; [|destruct k; discriminate H]. injection H as ->. split; [lia|reflexivity].
Qed.

Section Direct.
  Variable hash : list Z -> Z.
  Variable encode : job -> option chunk.
  Variable parallelism : Z.

  (** ** Performing requests at once *)
  (** The file, the position, the file at each flush. *)
  Definition world : Type := list Z * Z * list (list Z).
  Definition put (c : chunk) (w : world) : option world :=
    let '(dest, pos, images) := w in
    match WriteChunk hash c pos with
    | None => None
    | Some (out, pos') =>
        if pos' =? ChunkEnd (ch_data_size (c_header c)) (ch_num_records (c_header c)) pos then Some (dest ++ out, pos', images) else None
    end.
  Definition pad (p : Z) (w : world) : option world :=
    let '(dest, pos, images) := w in
    match WritePadding hash p pos, PosAfterPadding pos p with
    | Some (out, pos'), Some q => if q =? pos' then Some (dest ++ out, pos', images) else None
    | _, _ => None
    end.
  Definition flush (w : world) : world := let '(dest, pos, images) := w in (dest, pos, images ++ [dest]).
  Definition w_at (w : world) : Z := snd (fst w).

  Definition perform (G : list chunk) (r : request) (w : world) : option world :=
    match r with
    | RChunk id => match nth_error G id with Some c => put c w | None => None end
    | RPadding p => pad p w
    | RFlush _ => Some (flush w)
    | RDone | RAnnotate _ => Some w
    end.
  Fixpoint performs (G : list chunk) (q : list request) (w : world) : option world :=
    match q with
    | [] => Some w
    | r :: q => match perform G r w with Some w => performs G q w | None => None end
    end.
  Lemma performs_app G a : forall b w, performs G (a ++ b) w = match performs G a w with Some w => performs G b w | None => None end.
  Proof. induction a as [|r a IH]; intros b w; cbn [performs app]; [reflexivity|]. destruct (perform G r w); [apply IH|reflexivity]. Qed.
  Lemma performs_more G c q : forall w w', performs G q w = Some w' -> performs (G ++ [c]) q w = Some w'.
  Proof.
    induction q as [|r q IH]; intros w w' H; cbn [performs] in *; [exact H|]. destruct (perform G r w) as [w1|] eqn:E; [|discriminate H].
    assert (E2 : perform (G ++ [c]) r w = Some w1).
    { destruct r; cbn [perform] in *; try exact E. destruct (nth_error G id) eqn:N; [|discriminate E]. rewrite (nth_error_app_some _ _ _ _ N). exact E. }
    rewrite E2. apply IH, H.
  Qed.

  (** Resolving a future when all headers are known. *)
  Fixpoint resolved (G : list chunk) (pos : Z) (l : list action) : option Z :=
    match l with
    | [] => Some pos
    | AHeader id :: l =>
        match nth_error G id with
        | Some c => resolved G (ChunkEnd (ch_data_size (c_header c)) (ch_num_records (c_header c)) pos) l
        | None => None
        end
    | APadding p :: l => match PosAfterPadding pos p with Some pos => resolved G pos l | None => None end
    end.
  Lemma resolved_more G c l : forall pos z, resolved G pos l = Some z -> resolved (G ++ [c]) pos l = Some z.
  Proof.
    induction l as [|[id|p] l IH]; intros pos z H; cbn [resolved] in *; [exact H| |].
    - destruct (nth_error G id) eqn:N; [|discriminate H]. rewrite (nth_error_app_some _ _ _ _ N). apply IH, H.
    - destruct (PosAfterPadding pos p); [|discriminate H]. apply IH, H.
  Qed.
  Lemma resolved_app G a : forall b pos, resolved G pos (a ++ b) = match resolved G pos a with Some z => resolved G z b | None => None end.
  Proof. induction a as [|[id|p] a IH]; intros b pos; cbn [resolved app]; [reflexivity| |]; [destruct (nth_error G id)|destruct (PosAfterPadding pos p)]; auto. Qed.
  Lemma perform_resolved G r w w' : perform G r w = Some w' -> resolved G (w_at w) (actions [r]) = Some (w_at w').
  Proof.
    destruct w as [[dest pos] images]. destruct r; cbn [perform actions flat_map app resolved w_at fst snd]; intros H.
    - injection H as <-. reflexivity.
    - injection H as <-. reflexivity.
    - destruct (nth_error G id) as [c|]; [|discriminate H]. unfold put in H. destruct (WriteChunk hash c pos) as [[out p']|]; [|discriminate H].
      destruct (Z.eqb_spec p' (ChunkEnd (ch_data_size (c_header c)) (ch_num_records (c_header c)) pos)) as [E|E]; [|discriminate H]. injection H as <-. unfold w_at; cbn [fst snd]. congruence.
    - unfold pad in H. destruct (WritePadding hash padding pos) as [[out p']|]; [|discriminate H]. destruct (PosAfterPadding pos padding) as [q|]; [|discriminate H].
      destruct (Z.eqb_spec q p') as [E|E]; [|discriminate H]. injection H as <-. unfold w_at; cbn [fst snd]. congruence.
    - injection H as <-. reflexivity.
  Qed.
  Lemma performs_resolved G q : forall w w', performs G q w = Some w' -> resolved G (w_at w) (actions q) = Some (w_at w').
  Proof.
    induction q as [|r q IH]; intros w w' H; cbn [performs] in H; [injection H as <-; reflexivity|].
    destruct (perform G r w) as [w1|] eqn:E; [|discriminate H]. change (actions (r :: q)) with (actions ([r] ++ q)). unfold actions. rewrite flat_map_app. rewrite resolved_app.
    fold (actions [r]). rewrite (perform_resolved _ _ _ _ E). apply IH, H.
  Qed.

  (** What is in the file stays there. *)
  Definition grows (w w' : world) : Prop := (exists out, fst (fst w') = fst (fst w) ++ out) /\ (exists im, snd w' = snd w ++ im).
  Lemma grows_refl w : grows w w. Proof. split; exists []; rewrite app_nil_r; reflexivity. Qed.
  Lemma grows_trans a b c : grows a b -> grows b c -> grows a c.
  Proof. intros [[o1 E1] [i1 F1]] [[o2 E2] [i2 F2]]. split; [exists (o1 ++ o2)|exists (i1 ++ i2)]; rewrite app_assoc; congruence. Qed.
  Lemma put_grows c w w' : put c w = Some w' -> grows w w'.
  Proof.
    destruct w as [[d p] i]. unfold put. destruct (WriteChunk hash c p) as [[out p']|]; [|discriminate]. destruct (p' =? _); [|discriminate]. intros H. injection H as <-.
    split; cbn; [exists out; reflexivity|exists []; rewrite app_nil_r; reflexivity].
  Qed.
  Lemma pad_grows c w w' : pad c w = Some w' -> grows w w'.
  Proof.
    destruct w as [[d p] i]. unfold pad. destruct (WritePadding hash c p) as [[out p']|]; [|discriminate]. destruct (PosAfterPadding p c) as [q|]; [|discriminate]. destruct (q =? p'); [|discriminate].
    intros H. injection H as <-. split; cbn; [exists out; reflexivity|exists []; rewrite app_nil_r; reflexivity].
  Qed.
  Lemma flush_grows w : grows w (flush w).
  Proof. destruct w as [[d p] i]. split; cbn; [exists []; rewrite app_nil_r; reflexivity|exists [d]; reflexivity]. Qed.
  Lemma perform_grows G r w w' : perform G r w = Some w' -> grows w w'.
  Proof.
    destruct r; cbn [perform]; intros H.
    - injection H as <-. apply grows_refl.
    - injection H as <-. apply grows_refl.
    - destruct (nth_error G id); [|discriminate H]. exact (put_grows _ _ _ H).
    - exact (pad_grows _ _ _ H).
    - injection H as <-. apply flush_grows.
  Qed.
  Lemma performs_grows G q : forall w w', performs G q w = Some w' -> grows w w'.
  Proof.
    induction q as [|r q IH]; intros w w' H; cbn [performs] in H; [injection H as <-; apply grows_refl|].
    destruct (perform G r w) as [w1|] eqn:E; [|discriminate H]. exact (grows_trans _ _ _ (perform_grows _ _ _ _ E) (IH _ _ H)).
  Qed.

  (** ** Running a program of the user, with requests performed at once. *)
  Record dstate := MkD { d_world : world; d_chunks : list chunk; d_begins : list Z; d_flushes : nat }.
  Fixpoint direct {A} (p : prog A) (d : dstate) : option (A * dstate) :=
    let '(MkD w G bs n) := d in
    match p with
    | Ret a => Some (a, d)
    | Crash => None
    | AskOk k => direct (k true) d
    | FailNow _ => None
    | SendChunk c k => match put c w with Some w => direct k (MkD w (G ++ [c]) bs n) | None => None end
    | SendJob j k =>
        match encode j with
        | Some c => match put c w with Some w => direct k (MkD w (G ++ [c]) bs n) | None => None end
        | None => None
        end
    | SendPadding q k => match pad q w with Some w => direct k (MkD w G bs n) | None => None end
    | SendFlush k => direct (k n) (MkD (flush w) G bs (S n))
    | AwaitFlush m k => if (m <? n)%nat then direct (k true) d else None
    | SendAnnotate _ => None
    | AwaitAnnotate _ _ => None
    | SendDone k => direct k d
    | AwaitDone k => direct k d
    | TakeBegin k => direct (k (length bs)) (MkD w G (bs ++ [w_at w]) n)
    | GetBegin m k => match nth_error bs m with Some z => direct (k z) d | None => None end
    end.
  Lemma direct_bind {A B} (p : prog A) (f : A -> prog B) : forall d, direct (bind p f) d = match direct p d with Some (a, d) => direct (f a) d | None => None end.
  Proof.
    induction p; intros [w G bs nf]; cbn [bind direct]; auto.
    - destruct (put c w); auto.
    - destruct (encode j); [|reflexivity]. destruct (put c w); auto.
    - destruct (pad padding w); auto.
    - destruct (n <? nf)%nat; auto.
    - destruct (nth_error bs n); auto.
  Qed.
  Lemma direct_grows {A} (p : prog A) : forall d a d', direct p d = Some (a, d') -> grows (d_world d) (d_world d').
  Proof.
    induction p; intros [w G bs nf] a' d' E; cbn [direct] in E; try discriminate E.
    - injection E as <- <-. apply grows_refl.
    - eapply H, E.
    - destruct (put c w) as [w1|] eqn:P; [|discriminate E]. exact (grows_trans _ _ _ (put_grows _ _ _ P) (IHp _ _ _ E)).
    - destruct (encode j) as [c|]; [|discriminate E]. destruct (put c w) as [w1|] eqn:P; [|discriminate E]. exact (grows_trans _ _ _ (put_grows _ _ _ P) (IHp _ _ _ E)).
    - destruct (pad padding w) as [w1|] eqn:P; [|discriminate E]. exact (grows_trans _ _ _ (pad_grows _ _ _ P) (IHp _ _ _ E)).
    - exact (grows_trans _ _ _ (flush_grows w) (H _ _ _ _ E)).
    - destruct (n <? nf)%nat; [|discriminate E]. exact (H _ _ _ _ E).
    - exact (IHp _ _ _ E).
    - exact (IHp _ _ _ E).
    - exact (H _ _ _ _ E).
    - destruct (nth_error bs n) as [z|]; [|discriminate E]. exact (H _ _ _ _ E).
  Qed.

  (** ** States of the threads *)
  Context {A : Type}.
  Notation state := (state A).
  Implicit Type s : state.
  Notation step := (@step hash encode parallelism A).
  (** Requests not performed yet. *)
  Definition pending (s : state) : list request := match s_thread s with WHandled | WExited => tl (s_queue s) | _ => s_queue s end.
  Definition direct_user (u : user A) (d : dstate) : option (A * dstate) := match u with Running p => direct p d | Scheduling _ _ p => direct p d end.
  Definition task_ok (G : list chunk) (t : nat * task) : Prop :=
    match snd t with
    | Encode j => exists c, encode j = Some c /\ nth_error G (fst t) = Some c
    | SetHeader c | SetChunk c => nth_error G (fst t) = Some c
    | _ => False
    end.
  Definition promise_ok (p : promise) (c : chunk) : Prop :=
    (p_header p = None \/ p_header p = Some (c_header c)) /\ (p_chunk p = None \/ p_chunk p = Some c).
  Definition flush_ids (q : list request) : list nat := flat_map (fun r => match r with RFlush n => [n] | _ => [] end) q.

  Record sh_inv (s : state) (G : list chunk) (w : world) (bs : list Z) : Prop := {
    oi_ok : s_ok s = true;
    oi_perf : performs G (pending s) (s_dest s, s_pos s, s_images s) = Some w;
    oi_prom : Forall2 promise_ok (s_promises s) G;
    oi_tasks : Forall (task_ok G) (s_tasks s);
    oi_fut : Forall2 (fun f b => resolved G (fst f) (snd f) = Some b) (s_futures s) bs;
    oi_before : match s_thread s with
                | WHandled | WExited => resolved G (s_before s) (actions (firstn 1 (s_queue s))) = Some (s_pos s)
                | _ => s_before s = s_pos s
                end;
    oi_flush : forall n b, nth_error (s_flushes s) n = Some (Some b) -> b = true /\ (n < length (s_images s))%nat;
    oi_ids : seq 0 (length (s_flushes s)) = seq 0 (length (s_images s)) ++ flush_ids (pending s) }.
  Record ok_inv (R : A * dstate) (s : state) (G : list chunk) (w : world) (bs : list Z) : Prop := {
    oi_sh : sh_inv s G w bs;
    oi_direct : direct_user (s_user s) (MkD w G bs (length (s_flushes s))) = Some R;
    oi_sched : match s_user s with Scheduling id j _ => task_ok G (id, Encode j) | Running _ => True end }.
  Record fail_inv (R : A * dstate) (s : state) : Prop := {
    fi_ok : s_ok s = false;
    fi_dest : exists out, fst (fst (d_world (snd R))) = s_dest s ++ out;
    fi_images : exists im, snd (d_world (snd R)) = s_images s ++ im;
    fi_flush : forall n, nth_error (s_flushes s) n = Some (Some true) -> (n < length (s_images s))%nat }.

  Lemma task_ok_more G c t : task_ok G t -> task_ok (G ++ [c]) t.
  Proof.
    unfold task_ok. destruct (snd t); auto.
    - intros (c' & E & N). exists c'. split; [exact E|]. apply nth_error_app_some, N.
    - apply nth_error_app_some.
    - apply nth_error_app_some.
  Qed.
  Lemma promise_at ps G i p c : Forall2 promise_ok ps G -> nth_error ps i = Some p -> nth_error G i = Some c -> promise_ok p c.
  Proof.
    intros F. revert i. induction F as [|p0 c0 ps G H F IH]; intros [|i] E1 E2; cbn in *; try discriminate; [congruence|eauto].
  Qed.
  Lemma promise_set ps G i p c : Forall2 promise_ok ps G -> nth_error G i = Some c -> promise_ok p c -> Forall2 promise_ok (set_nth i p ps) G.
  Proof.
    intros F. revert i. induction F as [|p0 c0 ps G H F IH]; intros [|i] E P; cbn in *; try discriminate; constructor; auto. congruence.
  Qed.
  Lemma Forall2_length_eq {X Y} (P : X -> Y -> Prop) a b : Forall2 P a b -> length a = length b.
  Proof. induction 1; cbn; congruence. Qed.
  Lemma Forall2_snoc {X Y} (P : X -> Y -> Prop) a b x y : Forall2 P a b -> P x y -> Forall2 P (a ++ [x]) (b ++ [y]).
  Proof. intros F H. apply Forall2_app; [exact F|]. constructor; [exact H|constructor]. Qed.
  Lemma Forall2_nth {X Y} (P : X -> Y -> Prop) a b n x y : Forall2 P a b -> nth_error a n = Some x -> nth_error b n = Some y -> P x y.
  Proof. intros F. revert n. induction F as [|x0 y0 a b H F IH]; intros [|n] E1 E2; cbn in *; try discriminate; [congruence|eauto]. Qed.

  Lemma resolve_resolved ps G l : Forall2 promise_ok ps G -> forall pos z, resolve ps pos l = Some z -> resolved G pos l = Some z.
  Proof.
    intros F. induction l as [|[id|p] l IH]; intros pos z H; cbn [resolve resolved] in *; [exact H| |].
    - destruct (nth_error ps id) as [[[h|] c']|] eqn:N; try discriminate H.
      destruct (nth_error G id) as [c|] eqn:N2.
      + destruct (promise_at _ _ _ _ _ F N N2) as [[E|E] _]; cbn [p_header] in E; [discriminate E|]. injection E as ->. apply IH, H.
      + exfalso. apply nth_error_None in N2. rewrite <- (Forall2_length_eq _ _ _ F) in N2. apply nth_error_None in N2. congruence.
    - destruct (PosAfterPadding pos p); [|discriminate H]. apply IH, H.
  Qed.

  (** The position after everything sent so far. *)
  Lemma begin_resolved s G w bs : sh_inv s G w bs -> resolved G (s_before s) (actions (s_queue s)) = Some (w_at w).
  Proof.
    intros I. pose proof (performs_resolved _ _ _ _ (oi_perf _ _ _ _ I)) as P. pose proof (oi_before _ _ _ _ I) as B. unfold pending in P. unfold w_at in P at 1. cbn [fst snd] in P.
    destruct (s_thread s); try (rewrite B; exact P).
    all: destruct (s_queue s) as [|r q]; cbn [firstn tl] in *.
    all: try (unfold actions in *; cbn [flat_map resolved] in *; congruence).
    all: change (r :: q) with ([r] ++ q); unfold actions; rewrite flat_map_app, resolved_app; fold (actions [r]); rewrite B; exact P.
  Qed.

  Ltac fields := cbn [s_user s_thread s_tasks s_queue s_before s_ok s_dest s_pos s_images s_promises s_flushes s_annotations s_done s_futures
     set_user set_thread set_tasks set_queue set_before set_failed put_dest add_image set_promises set_flushes set_annotations set_done add_future enqueue] in *.
  Lemma pending_enqueue s r : s_thread s = WHandled \/ s_thread s = WExited -> s_queue s <> [] -> pending (enqueue r s) = pending s ++ [r].
  Proof. intros T Q. unfold pending. fields. destruct (s_queue s) as [|a q]; [congruence|]. destruct T as [-> | ->]; reflexivity. Qed.
  (** The front request stays in the queue while it is handled, and RDone stays forever. *)
  Definition fronts (s : state) : Prop := match s_thread s with WWait => True | _ => s_queue s <> [] end.
  Lemma pending_send s r : fronts s -> pending (enqueue r s) = pending s ++ [r].
  Proof.
    unfold fronts. intros F. destruct (s_thread s) eqn:T.
    - unfold pending, enqueue, set_queue. cbn [s_thread s_queue]. rewrite T. reflexivity.
    - unfold pending, enqueue, set_queue. cbn [s_thread s_queue]. rewrite T. reflexivity.
    - apply pending_enqueue; auto.
    - apply pending_enqueue; auto.
  Qed.
  Lemma fronts_firstn s r : fronts s -> s_thread s = WHandled \/ s_thread s = WExited -> firstn 1 (s_queue s ++ [r]) = firstn 1 (s_queue s).
  Proof. unfold fronts. intros F T. destruct (s_queue s) as [|a q]; [|reflexivity]. destruct T as [E|E]; rewrite E in F; congruence. Qed.
  Lemma flush_ids_app a b : flush_ids (a ++ b) = flush_ids a ++ flush_ids b.
  Proof. apply flat_map_app. Qed.

  (** Changes of the shared state. *)
  Lemma sh_user u s G w bs : sh_inv s G w bs -> sh_inv (set_user u s) G w bs.
  Proof. intros [H1 H2 H3 H4 H5 H6 H7 H8]. constructor; assumption. Qed.
  Lemma sh_enqueue r w' s G w bs : fronts s -> sh_inv s G w bs -> perform G r w = Some w' -> flush_ids [r] = [] -> sh_inv (enqueue r s) G w' bs.
  Proof.
    intros F [H1 H2 H3 H4 H5 H6 H7 H8] P N. constructor; try assumption.
    - rewrite pending_send by exact F. rewrite performs_app. fields. rewrite H2. cbn [performs]. rewrite P. reflexivity.
    - fields. destruct (s_thread s) eqn:T; try assumption; rewrite fronts_firstn; auto.
    - rewrite pending_send by exact F. rewrite flush_ids_app, N, app_nil_r. exact H8.
  Qed.
  Lemma sh_chunk c p s G w bs : sh_inv s G w bs -> promise_ok p c -> sh_inv (set_promises (s_promises s ++ [p]) s) (G ++ [c]) w bs.
  Proof.
    intros [H1 H2 H3 H4 H5 H6 H7 H8] P. constructor; try assumption.
    - apply performs_more, H2.
    - fields. apply Forall2_snoc; assumption.
    - fields. eapply Forall_impl; [|exact H4]. intros t. apply task_ok_more.
    - fields. clear - H5. induction H5 as [|f b fs bs E F IH]; constructor; [apply resolved_more, E|exact IH].
    - fields. destruct (s_thread s); try assumption; apply resolved_more; assumption.
  Qed.
  Lemma sh_enqueue_flush s G w bs : fronts s -> sh_inv s G w bs ->
    sh_inv (enqueue (RFlush (length (s_flushes s))) (set_flushes (s_flushes s ++ [None]) s)) G (flush w) bs.
  Proof.
    intros F [H1 H2 H3 H4 H5 H6 H7 H8]. constructor; try assumption.
    - rewrite pending_send by exact F. rewrite performs_app. fields. change (pending (set_flushes (s_flushes s ++ [None]) s)) with (pending s). rewrite H2. reflexivity.
    - fields. destruct (s_thread s) eqn:T; try assumption; rewrite fronts_firstn; auto.
    - fields. intros n b N. apply nth_snoc_inv in N as [N|[_ N]]; [exact (H7 n b N)|discriminate N].
    - rewrite pending_send by exact F. rewrite flush_ids_app. fields. change (pending (set_flushes (s_flushes s ++ [None]) s)) with (pending s).
      rewrite app_length, Nat.add_comm. cbn [length Nat.add]. rewrite seq_S, H8, Nat.add_0_l, <- app_assoc. reflexivity.
  Qed.

  Lemma user_ok R s s' G w bs : ok_inv R s G w bs -> fronts s -> user_step parallelism s = Some s' -> exists G' w' bs', ok_inv R s' G' w' bs'.
  Proof.
    intros [SH D SC] F E. unfold user_step in E. destruct (s_user s) as [p|id j p] eqn:U; cbn [direct_user] in D.
    - destruct p; cbn [direct] in D; try discriminate D; try discriminate E.
      + injection E as <-. exists G, w, bs. rewrite (oi_ok _ _ _ _ SH). constructor; [apply sh_user, SH|exact D|exact Logic.I].
      + destruct (put c w) as [w1|] eqn:P; [|discriminate D]. unfold send in E. destruct (HasCapacity parallelism _); [|discriminate E]. injection E as <-.
        exists (G ++ [c]), w1, bs. constructor; [|exact D|exact Logic.I].
        apply sh_enqueue with (w := w); [exact F| |cbn [perform]|reflexivity].
        * apply sh_user, sh_chunk; [exact SH|]. split; right; reflexivity.
        * rewrite (Forall2_length_eq _ _ _ (oi_prom _ _ _ _ SH)), nth_snoc. exact P.
      + destruct (encode j) as [c|] eqn:EJ; [|discriminate D]. destruct (put c w) as [w1|] eqn:P; [|discriminate D]. unfold send in E. destruct (HasCapacity parallelism _); [|discriminate E]. injection E as <-.
        exists (G ++ [c]), w1, bs. rewrite (Forall2_length_eq _ _ _ (oi_prom _ _ _ _ SH)). constructor; [|exact D|].
        * apply sh_enqueue with (w := w); [exact F| |cbn [perform]|reflexivity].
          -- apply sh_user, sh_chunk; [exact SH|]. split; left; reflexivity.
          -- rewrite nth_snoc. exact P.
        * fields. exists c. cbn [fst snd]. rewrite nth_snoc. auto.
      + destruct (pad padding w) as [w1|] eqn:P; [|discriminate D]. unfold send in E. destruct (HasCapacity parallelism _); [|discriminate E]. injection E as <-.
        exists G, w1, bs. constructor; [|exact D|exact Logic.I]. apply sh_enqueue with (w := w); [exact F|apply sh_user, SH|exact P|reflexivity].
      + unfold send in E. destruct (HasCapacity parallelism _); [|discriminate E]. injection E as <-.
        exists G, (flush w), bs. constructor; [|fields; rewrite app_length, Nat.add_comm; exact D|exact Logic.I].
        apply (sh_user (Running (k (length (s_flushes s))))) with (s := enqueue (RFlush (length (s_flushes s))) (set_flushes (s_flushes s ++ [None]) s)).
        apply sh_enqueue_flush; assumption.
      + destruct (nth_error (s_flushes s) n) as [[b|]|] eqn:N; try discriminate E. injection E as <-. destruct (oi_flush _ _ _ _ SH _ _ N) as [-> _].
        destruct (n <? length (s_flushes s))%nat; [|discriminate D]. exists G, w, bs. constructor; [apply sh_user, SH|exact D|exact Logic.I].
      + injection E as <-. exists G, w, bs. constructor; [|exact D|exact Logic.I]. apply sh_enqueue with (w := w); [exact F|apply sh_user, SH|reflexivity|reflexivity].
      + destruct (s_done s); [|discriminate E]. injection E as <-. exists G, w, bs. constructor; [apply sh_user, SH|exact D|exact Logic.I].
      + injection E as <-. exists G, w, (bs ++ [w_at w]). assert (LB : length (s_futures s) = length bs) by exact (Forall2_length_eq _ _ _ (oi_fut _ _ _ _ SH)). rewrite LB. constructor; [|exact D|exact Logic.I].
        pose proof (begin_resolved _ _ _ _ SH) as B. destruct SH as [H1 H2 H3 H4 H5 H6 H7 H8]. constructor; try assumption. fields. apply Forall2_snoc; [exact H5|]. exact B.
      + destruct (nth_error (s_futures s) n) as [[pos l]|] eqn:N; [|discriminate E]. destruct (resolve (s_promises s) pos l) as [z|] eqn:RS; [|discriminate E]. injection E as <-.
        destruct (nth_error bs n) as [z'|] eqn:N2; [|discriminate D].
        pose proof (Forall2_nth _ _ _ _ _ _ (oi_fut _ _ _ _ SH) N N2) as RZ. cbn [fst snd] in RZ. rewrite (resolve_resolved _ _ _ (oi_prom _ _ _ _ SH) _ _ RS) in RZ. injection RZ as <-.
        exists G, w, bs. constructor; [apply sh_user, SH|exact D|exact Logic.I].
    - injection E as <-. exists G, w, bs. constructor; [|exact D|exact Logic.I].
      destruct SH as [H1 H2 H3 H4 H5 H6 H7 H8]. constructor; try assumption. fields. apply Forall_app. split; [assumption|]. constructor; [exact SC|constructor].
  Qed.

  Lemma task_ok_step R s s' G w bs n : ok_inv R s G w bs -> task_step encode parallelism n s = Some s' -> ok_inv R s' G w bs.
  Proof.
    intros [SH D SC] E. unfold task_step in E. destruct (nth_error (s_tasks s) n) as [[id t]|] eqn:N; [|discriminate E].
    pose proof (proj1 (Forall_forall _ _) (oi_tasks _ _ _ _ SH) _ (nth_error_In _ _ N)) as T. unfold task_ok in T. cbn [fst snd] in T. rewrite (oi_ok _ _ _ _ SH) in E.
    destruct SH as [H1 H2 H3 H4 H5 H6 H7 H8]. destruct t; try contradiction.
    - destruct T as (c & EJ & NC). rewrite EJ in E. destruct j; cbn [negb] in E; injection E as <-.
      all: constructor; [|exact D|exact SC]; constructor; try assumption; fields; apply Forall_set_nth; [assumption|exact NC].
    - injection E as <-. constructor; [|exact D|exact SC]. constructor; try assumption; fields; [|apply Forall_set_nth; [assumption|exact T]].
      eapply promise_set; [exact H3|exact T|]. split; [right; reflexivity|left; reflexivity].
    - injection E as <-. constructor; [|exact D|exact SC]. constructor; try assumption; fields; [|apply Forall_remove_nth; assumption].
      eapply promise_set; [exact H3|exact T|]. split; right; reflexivity.
  Qed.

  (** *** The chunk writer thread *)
  Lemma sh_grows R s G w bs : ok_inv R s G w bs -> grows (s_dest s, s_pos s, s_images s) (d_world (snd R)).
  Proof.
    intros [SH D _]. eapply grows_trans; [exact (performs_grows _ _ _ _ (oi_perf _ _ _ _ SH))|]. destruct R as [a d].
    destruct (s_user s); cbn [direct_user] in D; exact (direct_grows _ _ _ _ D).
  Qed.
  Definition inv (R : A * dstate) (s : state) : Prop := (exists G w bs, ok_inv R s G w bs) \/ fail_inv R s.
  Lemma flushes_fail s (m : nat) : (forall n, nth_error (s_flushes s) n = Some (Some true) -> (n < length (s_images s))%nat) ->
    forall n, nth_error (set_nth m (Some false) (s_flushes s)) n = Some (Some true) -> (n < length (s_images s))%nat.
  Proof.
    intros H n N. destruct (Nat.eq_dec m n) as [->|D].
    - destruct (Nat.lt_ge_cases n (length (s_flushes s))) as [L|L]; [rewrite nth_set_nth_same in N by exact L; discriminate N|].
      assert (length (set_nth n (Some false) (s_flushes s)) <= n)%nat by (rewrite length_set_nth; exact L). apply nth_error_None in H0. congruence.
    - rewrite nth_set_nth_other in N by exact D. exact (H n N).
  Qed.
  Lemma seq_mid li m l n : seq 0 n = seq 0 li ++ m :: l -> m = li.
  Proof.
    intros E. assert (N : nth_error (seq 0 n) li = Some m) by (rewrite E, nth_error_app2, seq_length, Nat.sub_diag by (rewrite seq_length; lia); reflexivity).
    assert (L : (li < n)%nat) by (apply (f_equal (@length nat)) in E; rewrite app_length, !seq_length in E; cbn in E; lia).
    pose proof (@seq_nth n 0%nat li 0%nat L) as S1. apply (nth_error_nth _ _ 0%nat) in N. rewrite N in S1. exact S1.
  Qed.

  (** What has been written when the destination fails. *)
  Lemma fault_inv R s G w bs c out pos' p : ok_inv R s G w bs -> fronts s -> s_thread s = WHandle -> forall r q, s_queue s = r :: q ->
    perform G r (s_dest s, s_pos s, s_images s) = Some (s_dest s ++ out, pos', s_images s) ->
    fail_inv R (set_thread WHandled (set_failed (put_dest (s_dest s ++ ztake c out) p s))).
  Proof.
    intros I FR T r q Q P. pose proof (oi_sh _ _ _ _ _ I) as SH. constructor; fields.
    - reflexivity.
    - pose proof (oi_perf _ _ _ _ SH) as H2. unfold pending in H2. rewrite T, Q in H2. cbn [performs] in H2. rewrite P in H2.
      assert (GR : grows (s_dest s ++ out, pos', s_images s) (d_world (snd R))).
      { eapply grows_trans; [exact (performs_grows _ _ _ _ H2)|]. pose proof (oi_direct _ _ _ _ _ I) as D. destruct R as [a d]. destruct (s_user s); cbn [direct_user] in D; exact (direct_grows _ _ _ _ D). }
      destruct GR as [[o E] _]. cbn [fst] in E. exists (zdrop c out ++ o). rewrite E, <- !app_assoc. f_equal. rewrite app_assoc, ztake_zdrop. reflexivity.
    - destruct (sh_grows _ _ _ _ _ I) as [_ GI]. exact GI.
    - intros n N. exact (proj2 (oi_flush _ _ _ _ SH _ _ N)).
  Qed.

  Lemma sh_handled s G w bs r q d' p' i' fl : sh_inv s G w bs -> s_thread s = WHandle -> s_queue s = r :: q ->
    perform G r (s_dest s, s_pos s, s_images s) = Some (d', p', i') ->
    (forall n b, nth_error fl n = Some (Some b) -> b = true /\ (n < length i')%nat) -> length fl = length (s_flushes s) ->
    seq 0 (length i') ++ flush_ids q = seq 0 (length (s_images s)) ++ flush_ids (r :: q) ->
    forall t an dn, t = WHandled \/ t = WExited ->
    sh_inv (MkState (s_user s) t (s_tasks s) (s_queue s) (s_before s) (s_ok s) d' p' i' (s_promises s) fl an dn (s_futures s)) G w bs.
  Proof.
    intros [H1 H2 H3 H4 H5 H6 H7 H8] T Q P HF HL HI t an dn TT. unfold pending in H2, H8. rewrite T, Q in H2, H8. rewrite T in H6. cbn [performs] in H2. rewrite P in H2. constructor; try assumption.
    - unfold pending. fields. rewrite Q. destruct TT as [-> | ->]; exact H2.
    - fields. rewrite Q, H6. pose proof (perform_resolved _ _ _ _ P) as PR. unfold w_at in PR. cbn [fst snd] in PR. destruct TT as [-> | ->]; exact PR.
    - unfold pending. fields. rewrite Q, HL. destruct TT as [-> | ->]; cbn [tl]; rewrite HI; exact H8.
  Qed.

  Lemma writer_ok R s s' G w bs f : ok_inv R s G w bs -> fronts s -> writer_step hash f s = Some s' ->
    (exists G w bs, ok_inv R s' G w bs) \/ fail_inv R s'.
  Proof.
    intros I FR E. pose proof I as [SH D SC]. unfold writer_step in E. destruct (s_thread s) eqn:T; [| | |discriminate E].
    - destruct (s_queue s) as [|r q] eqn:Q; [discriminate E|]. injection E as <-. left. exists G, w, bs. constructor; [|exact D|exact SC].
      destruct SH as [H1 H2 H3 H4 H5 H6 H7 H8]. unfold pending in H2, H8. rewrite T in H2, H6, H8. constructor; assumption.
    - destruct (s_queue s) as [|r q] eqn:Q; [discriminate E|].
      assert (KEEP : forall d' p' i' fl an dn t, perform G r (s_dest s, s_pos s, s_images s) = Some (d', p', i') ->
        (forall n b, nth_error fl n = Some (Some b) -> b = true /\ (n < length i')%nat) -> length fl = length (s_flushes s) ->
        seq 0 (length i') ++ flush_ids q = seq 0 (length (s_images s)) ++ flush_ids (r :: q) -> t = WHandled \/ t = WExited ->
        exists G w bs, ok_inv R (MkState (s_user s) t (s_tasks s) (s_queue s) (s_before s) (s_ok s) d' p' i' (s_promises s) fl an dn (s_futures s)) G w bs).
      { intros d' p' i' fl an dn t P HF HL HI TT. exists G, w, bs. constructor; [|fields; rewrite HL; exact D|exact SC]. eapply sh_handled; eassumption. }
      pose proof (oi_flush _ _ _ _ SH) as HF. pose proof (oi_perf _ _ _ _ SH) as PF. unfold pending in PF. rewrite T, Q in PF. cbn [performs] in PF.
      destruct (handle hash f r s) as [s1|] eqn:H; [|discriminate E]. injection E as <-. unfold handle in H. destruct r.
      + injection H as <-. left. refine (KEEP _ _ _ _ _ _ _ eq_refl HF eq_refl eq_refl _). auto.
      + injection H as <-. left. refine (KEEP _ _ _ _ _ _ _ eq_refl HF eq_refl eq_refl _). auto.
      + cbn [perform] in PF, KEEP. destruct (nth_error (s_promises s) id) as [[h [c|]]|] eqn:N; try discriminate H. rewrite (oi_ok _ _ _ _ SH) in H.
        assert (NG : nth_error G id = Some c).
        { destruct (nth_error G id) as [c0|] eqn:NG; [|discriminate PF]. destruct (promise_at _ _ _ _ _ (oi_prom _ _ _ _ SH) N NG) as [_ [X|X]]; cbn [p_chunk] in X; congruence. }
        rewrite NG in PF, KEEP. unfold put in PF, KEEP. unfold write_dest in H. destruct (WriteChunk hash c (s_pos s)) as [[out pos']|] eqn:W; [|discriminate H].
        destruct (pos' =? ChunkEnd (ch_data_size (c_header c)) (ch_num_records (c_header c)) (s_pos s)) eqn:EQ; [|discriminate PF].
        destruct f as [ft|]; injection H as <-.
        * right. eapply fault_inv; [exact I|exact FR|exact T|exact Q|]. cbn [perform]. rewrite NG. unfold put. rewrite W, EQ. reflexivity.
        * left. refine (KEEP _ _ _ _ _ _ _ eq_refl HF eq_refl eq_refl _). auto.
      + cbn [perform] in PF, KEEP. rewrite (oi_ok _ _ _ _ SH) in H. unfold pad in PF, KEEP. unfold write_dest in H. destruct (WritePadding hash padding (s_pos s)) as [[out pos']|] eqn:W; [|discriminate H].
        destruct (PosAfterPadding (s_pos s) padding) as [z|] eqn:PA; [|discriminate PF]. destruct (z =? pos') eqn:EQ; [|discriminate PF].
        destruct f as [ft|]; injection H as <-.
        * right. eapply fault_inv; [exact I|exact FR|exact T|exact Q|]. cbn [perform]. unfold pad. rewrite W, PA, EQ. reflexivity.
        * left. refine (KEEP _ _ _ _ _ _ _ eq_refl HF eq_refl eq_refl _). auto.
      + rewrite (oi_ok _ _ _ _ SH) in H. destruct f as [ft|]; injection H as <-.
        * right. destruct (sh_grows _ _ _ _ _ I) as [GD GI]. constructor; fields; [reflexivity|exact GD|exact GI|].
          apply flushes_fail. intros m M. exact (proj2 (HF _ _ M)).
        * left. pose proof (oi_ids _ _ _ _ SH) as ID. unfold pending in ID. rewrite T, Q in ID. cbn [flush_ids flat_map app] in ID. pose proof (seq_mid _ _ _ _ ID) as ->.
          refine (KEEP _ _ _ _ _ _ _ eq_refl _ _ _ _); auto.
          -- intros m b M. fields. rewrite app_length. cbn [length]. destruct (Nat.eq_dec m (length (s_images s))) as [->|NE].
             ++ rewrite nth_set_nth_same in M; [injection M as <-; split; [reflexivity|lia]|].
                apply (f_equal (@length nat)) in ID. rewrite app_length, !seq_length in ID. cbn [length] in ID. lia.
             ++ rewrite nth_set_nth_other in M by congruence. destruct (HF _ _ M). split; [assumption|lia].
          -- fields. apply length_set_nth.
          -- fields. rewrite app_length, Nat.add_comm. cbn [length Nat.add flush_ids flat_map app]. rewrite seq_S, Nat.add_0_l, <- app_assoc. reflexivity.
    - injection E as <-. left. exists G, w, bs. constructor; [|exact D|exact SC].
      destruct SH as [H1 H2 H3 H4 H5 H6 H7 H8]. unfold pending in H2, H8. rewrite T in H2, H6, H8. constructor; try assumption. reflexivity.
  Qed.

  (** *** After a failure nothing more is written. *)
  Lemma fail_step R s s' t : fail_inv R s -> step t s = Some s' -> fail_inv R s'.
  Proof.
    intros [H1 H2 H3 H4] E. destruct t as [|n|f]; cbn [ParallelWriter.step] in E.
    - unfold user_step, send in E. destruct (s_user s) as [p|id j p]; [|injection E as <-; constructor; assumption]. destruct p; try discriminate E.
      all: try (destruct (HasCapacity parallelism _); [|discriminate E]).
      all: try (injection E as <-; constructor; fields; (assumption || reflexivity || idtac)).
      + intros n N. apply nth_snoc_inv in N as [N|[_ N]]; [exact (H4 n N)|discriminate N].
      + destruct (nth_error (s_flushes s) n) as [[b|]|]; try discriminate E. injection E as <-. constructor; assumption.
      + destruct (nth n (s_annotations s) false); [|discriminate E]. injection E as <-. constructor; assumption.
      + destruct (s_done s); [|discriminate E]. injection E as <-. constructor; assumption.
      + destruct (nth_error (s_futures s) n) as [[pos l]|]; [|discriminate E]. destruct (resolve (s_promises s) pos l); [|discriminate E]. injection E as <-. constructor; assumption.
    - unfold task_step in E. destruct (nth_error (s_tasks s) n) as [[id t]|]; [|discriminate E]. destruct t.
      + destruct (match j with JobMetadata _ => false | JobChunk _ => negb (s_ok s) end); [|destruct (encode j)]; injection E as <-; constructor; assumption.
      + unfold send in E. destruct (HasCapacity parallelism _); [|discriminate E]. injection E as <-. constructor; assumption.
      + destruct (nth n0 (s_annotations s) false); [|discriminate E]. injection E as <-. constructor; try assumption. reflexivity.
      + injection E as <-. constructor; assumption.
      + injection E as <-. constructor; assumption.
    - unfold writer_step in E. destruct (s_thread s); [| | |discriminate E].
      + destruct (s_queue s); [discriminate E|]. injection E as <-. constructor; assumption.
      + destruct (s_queue s) as [|r q]; [discriminate E|]. destruct (handle hash f r s) as [s1|] eqn:H; [|discriminate E]. injection E as <-.
        assert (F1 : fail_inv R s1); [|destruct F1; constructor; assumption].
        unfold handle in H. rewrite H1 in H. destruct r.
        * injection H as <-. constructor; assumption.
        * injection H as <-. constructor; assumption.
        * destruct (nth_error (s_promises s) id) as [[h [c|]]|]; try discriminate H. injection H as <-. constructor; assumption.
        * injection H as <-. constructor; assumption.
        * injection H as <-. constructor; fields; try assumption. apply flushes_fail, H4.
      + injection E as <-. constructor; assumption.
  Qed.
  Lemma inv_step R s s' t : inv R s -> fronts s -> step t s = Some s' -> inv R s'.
  Proof.
    intros [(G & w & bs & I)|I] F E; [|right; eapply fail_step; eassumption]. destruct t as [|n|f].
    - left. eapply user_ok; eassumption.
    - left. exists G, w, bs. eapply task_ok_step; eassumption.
    - eapply writer_ok; eassumption.
  Qed.
End Direct.
