(** Running a RecordReader on a sequence of calls, observing what Spec/CursorSpec.v describes. *)
From Verif Require Import Base.Bytes Model.RecordReader Spec.CursorSpec.

Section Run.
  Variable hash : list Z -> Z.
  Variable decompress : Z -> list Z -> option (list Z).
  Variable transpose_decode : list Z -> Z -> Z -> option (list Z * list Z).

  Definition reader_step (file : list Z) (c : reader_call) (d : record_reader) : option (reply * record_reader) :=
    match c with
    | ReadNext =>
        match RR_ReadRecord hash decompress transpose_decode file d with
        | Some (r, d) => Some (Rec r (last_pos d), d)
        | None => None
        end
    | SeekToPos p =>
        match RR_SeekTo hash decompress transpose_decode file (fst p) (snd p) d with
        | Some (b, d) => Some (Flag b, d)
        | None => None
        end
    | SeekNumeric p =>
        match RR_Seek hash decompress transpose_decode file p d with
        | Some (b, d) => Some (Flag b, d)
        | None => None
        end
    | StepBack =>
        match RR_SeekBack hash decompress transpose_decode file d with
        | Some (b, d) => Some (Flag b, d)
        | None => None
        end
    | Reseek =>
        match RR_SeekTo hash decompress transpose_decode file (fst (rpos d)) (snd (rpos d)) d with
        | Some (b, d) => Some (Flag b, d)
        | None => None
        end
    end.
  Fixpoint reader_run (file : list Z) (cs : list reader_call) (d : record_reader) : option (list reply * record_reader) :=
    match cs with
    | [] => Some ([], d)
    | c :: cs' =>
        match reader_step file c d with
        | None => None
        | Some (o, d) =>
            match reader_run file cs' d with
            | None => None
            | Some (os, d) => Some (o :: os, d)
            end
        end
    end.
End Run.
