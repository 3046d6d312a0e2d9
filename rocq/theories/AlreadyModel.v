(** Model of asking whether a file has been appended: meadowlark/meadowlark.cc
    (already_appended). *)
From Verif Require Import Base Bytes HopperModel TsvModel.

(** meadowlark/meadowlark.cc:165-172: hopper and its last answer.  The paths that the query
    finds are an argument, as is the text. *)
Definition already_body (translate : Z -> Z -> bytes) (path : bytes) (C : hcls) (s : St C * iv) : res ((St C * iv) + bool) :=
  let '(h, x) := s in
  if ip x <? maxf then
    if path_match (translate (ip x) (iq x)) path then Ok (inr true)
    else let* k := chk (ip x + 1) in
         let* r := h_tau C h k in
         Ok (inl r)
  else Ok (inr false).
(** meadowlark/meadowlark.cc:153-174 *)
Definition already_appended (translate : Z -> Z -> bytes) (C : hcls) (c : St C) (name : bytes) : res bool :=
  let* s := h_tau C c (minf + 1) in
  loop (already_body translate (normalized_path name) C) s.
