(** Model of random_ranking in src/ranking.cc. *)
From Verif Require Import Base HopperModel RankModel.

Section Random.
Context {F : Type} (zero : F) (lt : F -> F -> bool) (sort : sorter).
Context (C : hcls).
(** The i-th (1.0 * rand()) / (1.0 * rand()); None is the NaN of 0.0 / 0.0,
    which compares false. *)
Context (draw : nat -> option F).
Notation result := (result (F := F)).

(** src/ranking.cc:1525-1536, one round of the loop. *)
Definition random_step (depth : nat) (s : St C * iv * nat * list result * list result)
  : res ((St C * iv * nat * list result * list result) + (list result * list result)) :=
  let '(h, x, i, top, current) := s in
  if ip x <? maxf then
    let (top', current') :=
      match draw i with
      | Some score => keep lt sort depth (target_of zero top depth) (res3 (ip x) (iq x) score) (top, current)
      | None => (top, current)
      end in
    let* k := chk (ip x + 1) in
    let* (h', y) := h_tau C h k in
    Ok (inl (h', y, S i, top', current'))
  else Ok (inr (top, current)).
(** src/ranking.cc:1512-1539, random_ranking, for containers that have a
    hopper. *)
Definition random_ranking (c : St C) (depth : nat) : res (list result) :=
  if Nat.eqb depth 0 then Ok []
  else
    let* (h, x) := h_tau C c (minf + 1) in
    let* (top, current) := loop (random_step depth) (h, x, 0%nat, [], []) in
    Ok (top_results lt sort top current depth).
End Random.
