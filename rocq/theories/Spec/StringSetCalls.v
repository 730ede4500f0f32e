(** Histories of calls of the string set API, and what they should return. *)
From Verif Require Import Base.Bytes Spec.StringSetSpec Model.StringSet.

(** A sequence of TryInsertNext() calls; the [bool] tells whether the string is moved into the call. *)
Fixpoint try_inserts (b : builder) (calls : list (bool * list Z)) : option (builder * list status_or_bool) :=
  match calls with
  | [] => Some (b, [])
  | (moved, e) :: calls' =>
      match TryInsertNext moved b e with
      | None => None
      | Some (b, r) => match try_inserts b calls' with None => None | Some (b, rs) => Some (b, r :: rs) end
      end
  end.
(** What a call should return, the last element inserted being [last]: linear_sorted_string_set.h:626-634. *)
Definition insert_result (last : option (list Z)) (e : list Z) : status_or_bool :=
  match last with
  | None => Inserted true
  | Some l => match lex_cmp e l with Gt => Inserted true | Eq => Inserted false | Lt => Failed end
  end.
Fixpoint insert_results (last : option (list Z)) (src : list (list Z)) : list status_or_bool :=
  match src with
  | [] => []
  | e :: src' => insert_result last e :: insert_results (if fresh last e then Some e else last) src'
  end.

(** The last element of [es], or [last] if there is none *)
Definition or_last (last : option (list Z)) (es : list (list Z)) : option (list Z) :=
  match last_of es with Some x => Some x | None => last end.
(** Decode state before and after decoding a set with the elements [es]: linear_sorted_string_set.h:60-72. *)
Definition state_last (state : option decode_state) : option (list Z) := match state with Some d => ds_last d | None => None end.
Definition state_after (validate : bool) (state : option decode_state) (es : list (list Z)) : option decode_state :=
  option_map (fun d => {| ds_cumulative_size := ds_cumulative_size d + zlen es;
                          ds_last := if validate then or_last (ds_last d) es else ds_last d |}) state.
