(** What lines of a text are, independently of the implementation. *)
From Verif Require Import Base.Bytes Model.BufferedSource Model.Lines.

(** [first_line newline text line terminator rest]: the text begins with the given line and line terminator. *)
Inductive first_line (newline : ReadNewline) : list Z -> list Z -> list Z -> list Z -> Prop :=
| first_line_lf line rest : ~ In LF line -> (newline = RCrLfOrLf -> forall l, line <> l ++ [CR]) ->
    first_line newline (line ++ [LF] ++ rest) line [LF] rest
| first_line_crlf line rest : newline = RCrLfOrLf -> ~ In LF line ->
    first_line newline (line ++ [CR; LF] ++ rest) line [CR; LF] rest
| first_line_last line : line <> [] -> ~ In LF line -> first_line newline line line [] [].
(** All lines of a text, with their terminators *)
Inductive all_lines (newline : ReadNewline) : list Z -> list (list Z * list Z) -> Prop :=
| all_lines_nil : all_lines newline [] []
| all_lines_cons text line terminator rest lines : first_line newline text line terminator rest -> all_lines newline rest lines ->
    all_lines newline text ((line, terminator) :: lines).

(** A Reader in the middle of reading: some of the remaining data are in the buffer. *)
Definition readable (s : source) : Prop := 0 <= s_avail s <= zlen (s_rest s) /\ s_ok s = true.

(** Reading line by line until [false] is returned, with either version of ReadLine() *)
Fixpoint read_lines (read : source -> option line_result) (fuel : nat) (s : source) : option (list (list Z) * source) :=
  match fuel with
  | O => None
  | S fuel' =>
      match read s with
      | None => None
      | Some ((false, _), s) => Some ([], s)
      | Some ((true, line), s) => option_map (fun p => (line :: fst p, snd p)) (read_lines read fuel' s)
      end
  end.

(** Replacing CR-LF with LF, and LF with CR-LF *)
Fixpoint crlf_to_lf (text : list Z) : list Z :=
  match text with
  | [] => []
  | c :: t => match t with
              | d :: _ => if (c =? CR) && (d =? LF) then crlf_to_lf t else c :: crlf_to_lf t
              | [] => [c]
              end
  end.
Definition lf_to_crlf (text : list Z) : list Z := flat_map (fun c => if c =? LF then [CR; LF] else [c]) text.
(** Consecutive reads from a TextReader with the given minimal and maximal lengths, until one fails: the data read by successful
    reads, the data read by the failing one (if any), and the state afterwards *)
Fixpoint text_reads (calls : list (Z * Z)) (t : text_reader) : option (list (list Z) * option (list Z) * text_reader) :=
  match calls with
  | [] => Some ([], None, t)
  | (min_length, max_length) :: calls' =>
      match TextRead t min_length max_length with
      | None => None
      | Some ((false, data), t) => Some ([], Some data, t)
      | Some ((true, data), t) => option_map (fun r => (data :: fst (fst r), snd (fst r), snd r)) (text_reads calls' t)
      end
  end.
