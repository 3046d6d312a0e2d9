(** Which shards a background worker merges: bigwig.cc:817-1091.
    [size] is estimated_size(), [recoveries] are the sequence ranges of the sources of the
    unfinished hazel merges found when the directory was opened (fluffle->hazel_merges).
    Results are pairs of the first and the last index, None for false; the null checks of
    the code are dropped, as fluffle->warrens never has null pointers. *)
From Verif Require Import Base Bytes StoreModel.

(** bigwig.cc:818-820 *)
Definition small_shard : Z := 8 * 1024 * 1024.
Definition medium_shard : Z := 256 * 1024 * 1024.
Definition large_shard : Z := 2 * medium_shard.

(** bigwig.cc:822-850; [i] is the index of the next element. *)
Fixpoint sequence_loop (a : list bool) (i cur_start cur_len best_len best_start : nat) : nat * nat :=
  let better := Nat.leb 3 cur_len && Nat.ltb best_len cur_len in
  match a with
  | [] => if better then (cur_len, cur_start) else (best_len, best_start)
  | true :: r => sequence_loop r (S i) (if Nat.eqb cur_len 0 then i else cur_start) (S cur_len) best_len best_start
  | false :: r => if better then sequence_loop r (S i) cur_start 0 cur_len cur_start else sequence_loop r (S i) cur_start 0 best_len best_start
  end.
Definition find_sequence (a : list bool) : option (nat * nat) :=
  let '(len, s) := sequence_loop a 0 0 0 0 0 in if Nat.leb 3 len then Some (s, (s + len - 1)%nat) else None.
(** bigwig.cc:852-876 and 903-935: the loop both have; [ok] is the test on two neighbours. *)
Fixpoint pair_loop {A} (ok : A -> A -> bool) (w : A -> Z) (l : list A) (i : nat) (best : option (nat * Z)) : option (nat * Z) :=
  match l with
  | x :: (y :: _) as r =>
      let better := ok x y && match best with None => true | Some (_, s) => w x + w y <? s end in
      pair_loop ok w r (S i) (if better then Some (i, w x + w y) else best)
  | _ => best
  end.
Definition pair_at (best : option (nat * Z)) : option (nat * nat) := match best with Some (i, _) => Some (i, S i) | None => None end.
Definition find_smallest_pair (a : list Z) : option (nat * nat) :=
  pair_at (pair_loop (fun x y => (0 <=? x) && (0 <=? y)) (fun x => x) a 0 None).

Section Sched.
Variables (m : mem) (size : entry -> Z) (recoveries : list (list (Z * Z))) (max_workers : nat).
Definition is_fiver (e : entry) : bool := kind_eqb (e_kind e) FiverK.
Definition is_hazel (e : entry) : bool := kind_eqb (e_kind e) HazelK.
(** bigwig.cc:883-889; every shard being merged is in the list. *)
Definition hazel_merge_okay (l : list entry) : bool :=
  Nat.ltb (length (filter (fun e => negb (eligible m e) && is_hazel e) l) + 1) max_workers.
(** bigwig.cc:891-900 *)
Definition find_tiny_fiver_run (l : list entry) : option (nat * nat) :=
  find_sequence (map (fun e => eligible m e && is_fiver e && (size e <? small_shard)) l).
(** bigwig.cc:902-932 *)
Definition find_smallest_fiver_pair (l : list entry) : option (nat * nat) :=
  pair_at (pair_loop (fun x y => eligible m x && eligible m y && is_fiver x && is_fiver y &&
    (0 <=? size x) && (0 <=? size y) && (size x <? medium_shard) && (size y <? medium_shard)) size l 0 None).
(** bigwig.cc:934-953 *)
Fixpoint stranded_loop (l : list entry) (i : nat) : option (nat * nat) :=
  match l with
  | x :: ((y :: z :: _) as r) => if is_hazel x && is_fiver y && is_hazel z && eligible m y then Some (S i, S i) else stranded_loop r (S i)
  | _ => None
  end.
Definition find_stranded_fiver_conversion (l : list entry) : option (nat * nat) := stranded_loop l 0.
(** bigwig.cc:955-969 *)
Fixpoint large_loop (l : list entry) (i : nat) : option (nat * nat) :=
  match l with
  | e :: r => if eligible m e && is_fiver e && (medium_shard <=? size e) then Some (i, i) else large_loop r (S i)
  | [] => None
  end.
Definition find_oldest_large_fiver_conversion (l : list entry) : option (nat * nat) := large_loop l 0.
(** bigwig.cc:971-978 *)
Definition same_sequence (s : Z * Z) (e : entry) : bool := is_hazel e && (fst s =? e_start e) && (snd s =? e_end e).
(** bigwig.cc:980-1007 *)
Fixpoint sources_match (sources : list (Z * Z)) (l : list entry) : bool :=
  match sources, l with
  | [], _ => true
  | s :: ss, e :: r => eligible m e && same_sequence s e && sources_match ss r
  | _ :: _, [] => false
  end.
Fixpoint sources_loop (sources : list (Z * Z)) (l : list entry) (i : nat) : option (nat * nat) :=
  if Nat.ltb (length l) (length sources) then None
  else if sources_match sources l then Some (i, (i + length sources - 1)%nat)
  else match l with [] => None | _ :: r => sources_loop sources r (S i) end.
Fixpoint recovered_loop (rs : list (list (Z * Z))) (l : list entry) : option (nat * nat) :=
  match rs with
  | [] => None
  | r :: rest => match (if Nat.ltb (length r) 2 then None else sources_loop r l 0) with Some x => Some x | None => recovered_loop rest l end
  end.
Definition find_recovered_hazel_merge (l : list entry) : option (nat * nat) := recovered_loop recoveries l.
(** bigwig.cc:1009-1018 *)
Definition find_smallest_hazel_pair (l : list entry) : option (nat * nat) :=
  find_smallest_pair (map (fun e => if eligible m e && is_hazel e then size e else -1) l).
(** bigwig.cc:1020-1029 *)
Definition find_hazel_action (l : list entry) : option (nat * nat) :=
  if hazel_merge_okay l then match find_recovered_hazel_merge l with Some x => Some x | None => find_smallest_hazel_pair l end else None.
(** bigwig.cc:1031-1067: [fiver] is the index of the fiver found and whether it can be
    merged; any other kind of shard ends the search. *)
Fixpoint lone_loop (l : list entry) (i : nat) (fiver : option (nat * bool)) (hazels : nat) (smallest : Z) : option (nat * nat) :=
  match l with
  | [] => match fiver with
          | Some (k, true) => if Nat.eqb hazels 1 || (Nat.ltb 1 hazels && (large_shard <? smallest)) then Some (k, k) else None
          | _ => None
          end
  | e :: r => if is_fiver e then match fiver with Some _ => None | None => lone_loop r (S i) (Some (i, eligible m e)) hazels smallest end
              else if is_hazel e then lone_loop r (S i) fiver (S hazels) (if Nat.eqb hazels 0 || (size e <? smallest) then size e else smallest)
              else None
  end.
Definition find_lone_fiver_cleanup (l : list entry) : option (nat * nat) := lone_loop l 0 None 0 0.
(** bigwig.cc:1069-1091 *)
Definition orelse {A} (a b : option A) : option A := match a with Some x => Some x | None => b end.
Definition find_fiver_action (l : list entry) : option (nat * nat) :=
  orelse (find_lone_fiver_cleanup l) (orelse (find_tiny_fiver_run l) (orelse (find_stranded_fiver_conversion l)
    (orelse (find_oldest_large_fiver_conversion l) (find_smallest_fiver_pair l)))).
Definition find_merge_action (l : list entry) : option (nat * nat) := orelse (find_fiver_action l) (find_hazel_action l).
(** bigwig.cc:1216-1270: what the worker does next: the first shard, how many, and what with
    them.  None: it ends. *)
Definition decide : option (nat * nat * action) :=
  let l := cleanup (m_entries m) in
  match find_merge_action l with
  | None => None
  | Some (s, e) =>
      if Nat.ltb e s || Nat.leb (length l) e then None
      else let sel := firstn (e - s + 1) (skipn s l) in
      if forallb (eligible m) sel then match validate m sel with Some a => Some (s, (e - s + 1)%nat, a) | None => None end else None
  end.
End Sched.
