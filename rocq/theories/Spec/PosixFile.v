(** Files as POSIX describes them: what write() at a position and ftruncate() do to the content of a file.
    Both the model of the code which calls them and the specification of what that code is for are written in these terms. *)
From Verif Require Import Base.Bytes.

(** Bytes written at a position replace those which were there; if the position is beyond the end then the gap reads as zeros; writing
    no bytes has no effect. *)
Definition write_at (content : list Z) (pos : Z) (data : list Z) : list Z :=
  match data with
  | [] => content
  | _ => ztake pos content ++ zeros (pos - zlen content) ++ data ++ zdrop (pos + zlen data) content
  end.
(** The file is cut, or extended with zeros. *)
Definition set_size (content : list Z) (size : Z) : list Z := ztake size content ++ zeros (size - zlen content).
