(** Model of shard file names and of the choice of shards on reopening: src/owsla.cc,
    the shard part of src/fiver.cc and src/hazel.cc, and src/bigwig.cc:286-347.
    std::sort is the argument [sort]; removing a file always succeeds. *)
From Verif Require Import Base Bytes.

(** owsla.cc:16-22: width 20, fill '0'. *)
Definition seq2str (s : Z) : bytes := let d := dec s in repeat 48 (20 - length d) ++ d.
(** owsla.cc:28-31 *)
Definition shard_name (prefix : bytes) (s e : Z) : bytes := prefix ++ [46] ++ seq2str s ++ [46] ++ seq2str e.
(** owsla.cc:24-26 *)
Definition hazel_default_name (s e : Z) : bytes := lit "hazel." ++ seq2str s ++ [46] ++ seq2str e.
(** owsla.cc:35-42 *)
Definition all_digits (s : bytes) : bool := match s with [] => false | _ => forallb is_digit s end.
(** name.compare(0, prefix.size(), prefix) == 0, and the rest of the name. *)
Fixpoint strip (prefix name : bytes) : option bytes :=
  match prefix, name with
  | [], _ => Some name
  | c :: p, d :: n => if c =? d then strip p n else None
  | _ :: _, [] => None
  end.
(** name.find('.', ...): what is before and after the first dot. *)
Fixpoint cut_dot (s : bytes) : option (bytes * bytes) :=
  match s with
  | [] => None
  | c :: r => if c =? 46 then Some ([], r) else match cut_dot r with Some (a, b) => Some (c :: a, b) | None => None end
  end.
(** std::stoll of digits; None is std::out_of_range. *)
Definition stoll (s : bytes) : option Z := let v := dec_val 0 s in if v <=? maxf then Some v else None.
(** owsla.cc:46-70 *)
Definition parse_shard_name (name prefix : bytes) : option (Z * Z) :=
  match strip (prefix ++ [46]) name with
  | None => None
  | Some r =>
      match cut_dot r with
      | None => None
      | Some (a, b) =>
          if negb (all_digits a) || negb (all_digits b) then None
          else match stoll a, stoll b with
               | Some s, Some e => if (s <? 0) || (e <? s) then None else Some (s, e)
               | _, _ => None
               end
      end
  end.
(** hazel.cc:1344-1369 *)
Definition parse_hazel_name (name : bytes) : option (Z * Z) :=
  match strip (lit "hazel.") name with
  | None => None
  | Some r =>
      match cut_dot r with
      | None => None
      | Some (a, b) =>
          if negb (all_digits a) || negb (all_digits b) then None
          else match stoll a, stoll b with Some s, Some e => Some (s, e) | _, _ => None end
      end
  end.
(** hazel.cc:1544-1551, and the names of hazel.cc:1430-1438 without their directory. *)
Definition parse_hazel_sidecar (name prefix : bytes) : option (Z * Z) :=
  match strip (prefix ++ [46]) name with Some r => parse_shard_name r (lit "hazel") | None => None end.
Definition hazel_sidecar_name (dst prefix : bytes) : bytes := prefix ++ [46] ++ dst.

(** owsla.h:45-57: OwslaShard. *)
Record shard := Shard { s_start : Z; s_end : Z; s_name : bytes }.
(** The order of fiver.cc:413-416 and hazel.cc:1557-1560. *)
Definition shard_lt (a b : shard) : Prop := s_start a < s_start b \/ (s_start a = s_start b /\ s_end b < s_end a).
(** fiver.cc:410-431 and hazel.cc:1553-1574.  The lists are built backwards; None is the
    sequence error. *)
Fixpoint normalize_loop (found living dead : list shard) : option (list shard * list shard) :=
  match found with
  | [] => Some (rev living, rev dead)
  | x :: r =>
      match living with
      | [] => normalize_loop r (x :: living) dead
      | b :: _ =>
          if s_end b <? s_start x then normalize_loop r (x :: living) dead
          else if s_end x <=? s_end b then normalize_loop r living (x :: dead)
          else None
      end
  end.
Definition normalize (sort : list shard -> list shard) (found : list shard) : option (list shard * list shard) :=
  normalize_loop (sort found) [] [].
(** owsla.cc:72-78 *)
Definition ranges_overlap (a b : shard) : bool := (s_start a <=? s_end b) && (s_start b <=? s_end a).
Definition range_contains (outer inner : shard) : bool := (s_start outer <=? s_start inner) && (s_end inner <=? s_end outer).
(** fiver.cc:433-451, hazel.cc:1576-1593 *)
Definition verify_dead (living dead : list shard) : bool :=
  forallb (fun d => existsb (fun l => range_contains l d) living) dead.

(** fiver.cc:475-507, on the names ls("fiver") gives: the shards kept and the names
    removed; None is an error, before anything is removed. *)
Fixpoint parse_all (prefix : bytes) (names : list bytes) : option (list shard) :=
  match names with
  | [] => Some []
  | n :: r =>
      match parse_shard_name n prefix with
      | None => None
      | Some (s, e) => match parse_all prefix r with Some l => Some (Shard s e n :: l) | None => None end
      end
  end.
Definition sanitize_names (sort : list shard -> list shard) (prefix : bytes) (names : list bytes) : option (list shard * list bytes) :=
  match parse_all prefix names with
  | None => None
  | Some found =>
      match normalize sort found with
      | None => None
      | Some (living, dead) => if verify_dead living dead then Some (living, map s_name dead) else None
      end
  end.

(** working.cc:341-372: ls, the names that start with a prefix. *)
Definition has_prefix (p n : bytes) : bool := match strip p n with Some _ => true | None => false end.
Definition ls (names : list bytes) (p : bytes) : list bytes := filter (has_prefix p) names.
(** hazel.cc:1529-1542: has_suffix and parse_old_hazel_sidecar. *)
Definition has_suffix (s n : bytes) : bool := has_prefix (rev s) (rev n).
Definition drop_end (k : nat) (n : bytes) : bytes := firstn (length n - k) n.
Definition old_sidecar (n : bytes) : bool :=
  if has_suffix (lit ".tmp") n || has_suffix (lit ".pst") n || has_suffix (lit ".dct") n
  then match parse_shard_name (drop_end 4 n) (lit "hazel") with Some _ => true | None => false end else false.
(** hazel.cc:1825-1839: the shards and the old sidecars among the names. *)
Fixpoint hazel_found (names : list bytes) : option (list shard * list bytes) :=
  match names with
  | [] => Some ([], [])
  | n :: r =>
      match parse_shard_name n (lit "hazel") with
      | Some (s, e) => match hazel_found r with Some (f, o) => Some (Shard s e n :: f, o) | None => None end
      | None => if old_sidecar n then match hazel_found r with Some (f, o) => Some (f, n :: o) | None => None end else None
      end
  end.
(** hazel.cc:1606-1632: hazel_source_group.  The inner loop gives the group, false, or
    falls through. *)
Inductive group := Found (g : list shard) | Fail | Fall.
Fixpoint group_from (hs : list shard) (next e : Z) (acc : list shard) : group :=
  match hs with
  | [] => Fall
  | h :: r =>
      if negb (s_start h =? next) || (e <? s_end h) then Fall
      else let acc := acc ++ [h] in
           if s_end h =? e then (if (length acc <? 2)%nat then Fail else Found acc)
           else if s_end h =? maxf then Fall
           else group_from r (s_end h + 1) e acc
  end.
Fixpoint source_group (hs : list shard) (s e : Z) : option (list shard) :=
  match hs with
  | [] => None
  | h :: r =>
      if negb (s_start h =? s) then source_group r s e
      else match group_from hs s e [] with Found g => Some g | Fail => None | Fall => source_group r s e end
  end.
(** hazel.cc:1847-1867: the ranges of the sidecars, and the sidecars of a range.  The
    std::map is the sorted list of its keys. *)
Definition key_eq_dec (a b : Z * Z) : {a = b} + {a <> b}.
Proof. decide equality; apply Z.eq_dec. Defined.
Definition is_sidecar (k : Z * Z) (p n : bytes) : bool :=
  match parse_hazel_sidecar n p with Some k' => if key_eq_dec k' k then true else false | None => false end.
Definition sidecars (names : list bytes) (p : bytes) (k : Z * Z) : list bytes := filter (is_sidecar k p) (ls names p).
Fixpoint map_key (k : Z * Z) (l : list (Z * Z)) : list (Z * Z) :=
  match l with
  | [] => [k]
  | x :: r => if key_eq_dec k x then l
              else if (fst k <? fst x) || ((fst k =? fst x) && (snd k <? snd x)) then k :: l else x :: map_key k r
  end.
Definition sidecar_keys (names : list bytes) : list (Z * Z) :=
  fold_left (fun l k => map_key k l) (flat_map (fun p => flat_map (fun n => match parse_hazel_sidecar n p with Some k => [k] | None => [] end) (ls names p))
                                               [lit "mrg"; lit "pst"; lit "dct"]) [].
(** hazel.cc:1869-1895: for one range, the names removed and the merge to restart. *)
Definition recovery : Type := ((Z * Z) * list shard)%type.
Definition sidecar_step (names : list bytes) (living : list shard) (k : Z * Z) : list bytes * list recovery :=
  let mrg := sidecars names (lit "mrg") k in
  let pst := sidecars names (lit "pst") k in
  let dct := sidecars names (lit "dct") k in
  if existsb (fun h => (s_start h =? fst k) && (s_end h =? snd k)) living then (mrg ++ pst ++ dct, [])
  else match pst, dct, source_group living (fst k) (snd k) with
       | _ :: _, _ :: _, Some g => (mrg, [(k, g)])
       | _, _, _ => (mrg ++ pst ++ dct, [])
       end.
(** hazel.cc:1814-1909: Hazel::sanitize: the shards kept, the merges to restart (in the
    order of the keys) and the names removed, in order. *)
Definition hazel_sanitize (sort : list shard -> list shard) (names : list bytes) : option (list shard * list recovery * list bytes) :=
  match hazel_found (ls names (lit "hazel")) with
  | None => None
  | Some (found, old) =>
      match normalize sort found with
      | None => None
      | Some (living, dead) =>
          if verify_dead living dead then
            let steps := map (sidecar_step names living) (sidecar_keys names) in
            Some (living, flat_map snd steps, flat_map fst steps ++ map s_name dead ++ old)
          else None
      end
  end.

(** bigwig.cc:286-301 *)
Fixpoint verify_order (prev : option Z) (l : list shard) : bool :=
  match l with
  | [] => true
  | x :: r => negb ((s_start x <? 0) || (s_end x <? s_start x)) &&
              match prev with None => true | Some e => negb (s_start x <=? e) end &&
              verify_order (Some (s_end x)) r
  end.
(** bigwig.cc:311-338: the fivers kept and the fivers removed.  None is the error; by then
    some fivers within a hazel are removed. *)
Fixpoint drop_before (hazels : list shard) (s : Z) : list shard :=
  match hazels with [] => [] | h :: r => if s_end h <? s then drop_before r s else hazels end.
Fixpoint combine_loop (fivers hazels : list shard) : option (list shard * list shard) :=
  match fivers with
  | [] => Some ([], [])
  | f :: r =>
      let hazels := drop_before hazels (s_start f) in
      match hazels with
      | h :: _ =>
          if ranges_overlap h f then
            if range_contains h f then
              match combine_loop r hazels with Some (kept, gone) => Some (kept, f :: gone) | None => None end
            else None
          else match combine_loop r hazels with Some (kept, gone) => Some (f :: kept, gone) | None => None end
      | [] => match combine_loop r hazels with Some (kept, gone) => Some (f :: kept, gone) | None => None end
      end
  end.
(** bigwig.cc:303-347; the final sort is the argument [merge]. *)
Definition combine (merge : list shard -> list shard) (fivers hazels : list shard) : option (list shard * list shard) :=
  if verify_order None fivers && verify_order None hazels then
    match combine_loop fivers hazels with
    | Some (kept, gone) => Some (merge (hazels ++ kept), gone)
    | None => None
    end
  else None.
(** bigwig.cc:383-394 after finalize_commits, with fiver.cc:498-503: the shards of the
    index, the merges to restart and the names removed, in order. *)
Definition recover (sort merge : list shard -> list shard) (names : list bytes) : option (list shard * list recovery * list bytes) :=
  match sanitize_names sort (lit "fiver") (ls names (lit "fiver")) with
  | None => None
  | Some (fivers, dead) =>
      match hazel_sanitize sort names with
      | None => None
      | Some (hazels, merges, gone) =>
          match combine merge fivers hazels with
          | None => None
          | Some (shards, covered) => Some (shards, merges, ls names (lit "kitten") ++ dead ++ gone ++ map s_name covered)
          end
      end
  end.
