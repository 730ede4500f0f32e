(** What a serial writer (parallelism 0) shows for the calls of Model/ParallelWriter.v: futures are known at once. *)
From Verif Require Import Base.Bytes Model.Block Model.Chunk Model.ChunkWriter Model.SimpleChunk Model.RecordWriter Model.ParallelWriter Spec.RecordsSpec Spec.SessionSpec.

(** The same calls without those which only ask for something. *)
Definition plain (cs : list ucall) : list call :=
  flat_map (fun c => match c with Write r => [CallWrite r] | FlushNow | StartFlush => [CallFlush] | _ => [] end) cs.

Section Serial.
  Variable hash : list Z -> Z.
  Variable compress : Z -> list Z -> list Z.
  Variable transpose_encode : options -> list (list Z) -> list Z.

  (** Calls, made with a writer [w]; [positions] and [flushes] were kept by previous calls.
      What is seen, the file after each Flush() or FutureFlush(), the writer. *)
  Fixpoint serial_calls (cs : list ucall) (positions : list (option (Z * Z))) (flushes : list bool) (w : writer)
      : option (list seen * list (list Z) * writer) :=
    match cs with
    | [] => Some ([], [], w)
    | c :: cs =>
        let go s images positions flushes w :=
          match serial_calls cs positions flushes w with
          | None => None
          | Some (ss, images', w) => Some (s :: ss, images ++ images', w)
          end in
        match c with
        | Write r =>
            match WriteRecord hash compress transpose_encode r w with
            | None => None
            | Some (b, w) => go (SawFlag b) [] positions flushes w
            end
        | FlushNow =>
            match Flush hash compress transpose_encode w with
            | None => None
            | Some (b, w) => go (SawFlag b) [w_dest w] positions flushes w
            end
        | StartFlush =>
            match Flush hash compress transpose_encode w with
            | None => None
            | Some (b, w) => go SawNothing [w_dest w] positions (flushes ++ [b]) w
            end
        | AskPos => go SawNothing [] (positions ++ [Some (Pos w)]) flushes w
        | AskLastPos => go SawNothing [] (positions ++ [LastPos w]) flushes w
        | GetPos i => go (match nth_error positions i with Some (Some p) => SawPos p | _ => SawNothing end) [] positions flushes w
        | GetFlush i => go (match nth_error flushes i with Some b => SawFlag b | None => SawNothing end) [] positions flushes w
        end
    end.
  (** A writer is opened on a file which holds [dest], calls are made, the writer is closed:
      what is seen, the file after each flush, the result of Close(), the file. *)
  Definition serial_session (o : options) (cs : list ucall) (dest : list Z) : option (list seen * list (list Z) * bool * list Z) :=
    match NewRecordWriter hash transpose_encode o dest with
    | None => None
    | Some (_, w) =>
        match serial_calls cs [] [] w with
        | None => None
        | Some (ss, images, w) =>
            match CloseWriter hash compress transpose_encode w with
            | None => None
            | Some (b, w) => Some (ss, images, b, w_dest w)
            end
        end
    end.
End Serial.

Definition ucall_ok (o : options) (c : ucall) : Prop := match c with Write r => record_ok o r | _ => True end.
Definition is_fault (t : turn) : bool := match t with TurnWriter (Some _) => true | _ => false end.
Definition prefix {X} (a b : list X) : Prop := exists c, b = a ++ c.

(** A parallel writer with options [o], for calls [cs], is created on a file written by sessions [ss] (none for an empty file). *)
Record setting (hash : list Z -> Z) (compress : Z -> list Z -> list Z) (transpose_encode : options -> list (list Z) -> list Z)
    (ss : list (options * list call)) (o : options) (cs : list ucall) (dest : list Z) : Prop := {
  st_sessions : Forall session_ok ss;
  st_options : options_ok o;
  st_calls : Forall (ucall_ok o) cs;
  st_size : sessions_size (ss ++ [(o, plain cs)]) <= 2 ^ 62;
  st_dest : exists rs, Sessions hash compress transpose_encode ss [] = Some (rs, dest) }.
(** The user thread finished; it saw [y], and Close() returned [b]. *)
Definition user_finished (s : state (list seen * bool)) (y : list seen) (b : bool) : Prop := s_user s = Running (Ret (y, b)).
