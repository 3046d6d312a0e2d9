(** C31: shard names; C21: the shards of a directory that is opened again. *)
From Verif Require Import Base Bytes NameModel NameSpec NameProofs RecoverProofs RecoverAll NameWitness.
From Coq Require Import Sorting.Permutation Sorting.Sorted.

(** C31: the name of a range reads back as the range. *)
Theorem C31_back : forall prefix s e, 0 <= s <= e -> e <= maxf -> parse_shard_name (shard_name prefix s e) prefix = Some (s, e).
Proof. exact name_back. Qed.
Print Assumptions C31_back.
(** C31: exactly the names of the form prefix.digits.digits are read, with the ranges the
    digits spell. *)
Theorem C31_exact : forall name prefix s e, parse_shard_name name prefix = Some (s, e) <-> names_range prefix name s e.
Proof. exact parse_exact. Qed.
Print Assumptions C31_exact.
Theorem C31_named : forall prefix s e, 0 <= s <= e -> e <= maxf -> names_range prefix (shard_name prefix s e) s e.
Proof. exact shard_name_range. Qed.
Print Assumptions C31_named.
(** C31: different ranges have different names, and a name has one range. *)
Theorem C31_unique : forall prefix s e s' e', 0 <= s <= e -> e <= maxf -> 0 <= s' <= e' -> e' <= maxf ->
  shard_name prefix s e = shard_name prefix s' e' -> s = s' /\ e = e'.
Proof. exact name_inj. Qed.
Print Assumptions C31_unique.
Theorem C31_one_range : forall prefix name s e s' e', names_range prefix name s e -> names_range prefix name s' e' -> s = s' /\ e = e'.
Proof. exact range_unique. Qed.
Print Assumptions C31_one_range.
(** C31: names are in the order of their ranges. *)
Theorem C31_order : forall prefix s e s' e', 0 <= s <= e -> e <= maxf -> 0 <= s' <= e' -> e' <= maxf ->
  (before (shard_name prefix s e) (shard_name prefix s' e') <-> (s < s' \/ (s = s' /\ e < e'))).
Proof. exact name_order. Qed.
Print Assumptions C31_order.
(** C31: the two parsers of hazel names agree, and sidecar names read back. *)
Theorem C31_hazel : forall name s e, parse_shard_name name (lit "hazel") = Some (s, e) <-> (parse_hazel_name name = Some (s, e) /\ s <= e).
Proof. exact hazel_parsers. Qed.
Print Assumptions C31_hazel.
Theorem C31_sidecar : forall name kind s e, parse_hazel_sidecar name kind = Some (s, e) <->
  exists n, name = kind ++ [46] ++ n /\ names_range (lit "hazel") n s e.
Proof. exact sidecar_exact. Qed.
Print Assumptions C31_sidecar.
Theorem C31_sidecar_back : forall kind s e, 0 <= s <= e -> e <= maxf ->
  parse_hazel_sidecar (hazel_sidecar_name (hazel_default_name s e) kind) kind = Some (s, e).
Proof. exact sidecar_back. Qed.
Print Assumptions C31_sidecar_back.
Example C31_ex : 0 <= 9 <= 10 /\ 10 <= maxf /\ before (shard_name (lit "fiver") 9 9) (shard_name (lit "fiver") 10 10) /\
  names_range (lit "fiver") (lit "fiver.09.10") 9 10.
Proof. split; [lia|]. split; [vm_compute; discriminate|]. split; [apply name_order; try lia; vm_compute; discriminate|]. apply parse_exact. vm_compute. reflexivity. Qed.
(** C31: a range read from a directory may have another name than the one written. *)
Theorem C31_alias_refuted : exists a b s e, a <> b /\ parse_shard_name a (lit "fiver") = Some (s, e) /\ parse_shard_name b (lit "fiver") = Some (s, e).
Proof. exact alias. Qed.
Print Assumptions C31_alias_refuted.

(** C21: the shards kept are shard files of the directory, one after the other; every
    shard file is within a shard kept; the files removed are files of the directory and no
    shard kept is among them; and a merge that is restarted has two or more inputs, shards
    kept, that follow each other and make up its range. *)
Theorem C21_open : forall sort merge, sorts shard_lt sort -> sorts owsla_lt merge ->
  forall names shards merges removed, recover sort merge names = Some (shards, merges, removed) ->
  apart shards /\ (forall x, In x shards -> shard_file names x) /\
  (forall x, shard_file names x -> exists y, In y shards /\ within x y) /\
  (forall n, In n removed -> In n names) /\
  (NoDup names -> forall y, In y shards -> ~ In (s_name y) removed) /\
  (forall k g, In (k, g) merges -> chain g (fst k) (snd k) /\ (2 <= length g)%nat /\
     forall x, In x g -> In x shards /\ names_range (lit "hazel") (s_name x) (s_start x) (s_end x)).
Proof. exact recover_some. Qed.
Print Assumptions C21_open.
(** C21: if opening stops after any number of removals, opening again gives the same
    ranges. *)
Theorem C21_open_again : forall sort merge, sorts shard_lt sort -> sorts owsla_lt merge ->
  forall names shards merges removed k, NoDup names -> recover sort merge names = Some (shards, merges, removed) ->
  exists shards' merges' removed', recover sort merge (without names (firstn k removed)) = Some (shards', merges', removed') /\
    map range shards' = map range shards.
Proof. exact recover_again. Qed.
Print Assumptions C21_open_again.
(** C21: a merge that was under way, with its two sidecars and its inputs, is restarted. *)
Theorem C21_restart : forall sort merge, sorts shard_lt sort -> sorts owsla_lt merge ->
  forall names shards merges removed a b s e g, recover sort merge names = Some (shards, merges, removed) ->
  In (lit "pst." ++ a) names -> In (lit "dct." ++ b) names -> names_range (lit "hazel") a s e -> names_range (lit "hazel") b s e ->
  chain g s e -> (2 <= length g)%nat -> (forall x, In x g -> In x shards /\ names_range (lit "hazel") (s_name x) (s_start x) (s_end x)) ->
  In ((s, e), g) merges.
Proof. exact recover_restart. Qed.
Print Assumptions C21_restart.
(** C21: opening succeeds when the names are well formed, shard files of a kind are nested
    or separate, and no fiver meets a hazel it is not within. *)
Theorem C21_opens : forall sort merge, sorts shard_lt sort -> forall names,
  (forall r, In (lit "fiver" ++ r) names -> exists s e, names_range (lit "fiver") (lit "fiver" ++ r) s e) ->
  (forall r, In (lit "hazel" ++ r) names -> (exists s e, names_range (lit "hazel") (lit "hazel" ++ r) s e) \/ old_working (lit "hazel" ++ r)) ->
  (forall x y p, In (s_name x) names -> In (s_name y) names -> In p [lit "fiver"; lit "hazel"] ->
     names_range p (s_name x) (s_start x) (s_end x) -> names_range p (s_name y) (s_start y) (s_end y) -> within x y \/ within y x \/ separate x y) ->
  (forall f h, In (s_name f) names -> In (s_name h) names -> names_range (lit "fiver") (s_name f) (s_start f) (s_end f) ->
     names_range (lit "hazel") (s_name h) (s_start h) (s_end h) -> within f h \/ separate f h) ->
  exists shards merges removed, recover sort merge names = Some (shards, merges, removed).
Proof. exact recover_total. Qed.
Print Assumptions C21_opens.
(** C21: opening refuses shard files of a kind for which no choice of shards exists, before
    anything is removed. *)
Theorem C21_refuses : forall sort prefix names, sorts shard_lt sort -> sanitize_names sort prefix names = None ->
  (exists n, In n names /\ forall s e, ~ names_range prefix n s e) \/
  (forall kept, apart kept -> (forall x, In x kept -> named prefix names x) -> exists x, named prefix names x /\ forall y, In y kept -> ~ within x y).
Proof. exact sanitize_none. Qed.
Print Assumptions C21_refuses.
Example C21_ex_sort : sorts shard_lt sort_shards /\ sorts owsla_lt merge_shards.
Proof. split; [exact sort_shards_ok|exact merge_shards_ok]. Qed.
Example C21_ex : NoDup dir /\ recover sort_shards merge_shards dir =
  Some ([Shard 0 1 (lit "hazel.0.1"); Shard 2 3 (lit "hazel.2.3"); Shard 4 4 (lit "fiver.4.4"); Shard 5 5 (lit "fiver.5.5")],
        [((0, 3), [Shard 0 1 (lit "hazel.0.1"); Shard 2 3 (lit "hazel.2.3")])],
        [lit "kitten.6.6"; lit "fiver.2.2"; lit "pst.hazel.0.1"; lit "mrg.hazel.0.3"; lit "hazel.0.0"; lit "hazel.0.1.tmp"; lit "fiver.2.3"]).
Proof. exact (conj dir_nodup dir_recover). Qed.
Example C21_ex_opens :
  (forall r, In (lit "fiver" ++ r) tidy -> exists s e, names_range (lit "fiver") (lit "fiver" ++ r) s e) /\
  (forall r, In (lit "hazel" ++ r) tidy -> (exists s e, names_range (lit "hazel") (lit "hazel" ++ r) s e) \/ old_working (lit "hazel" ++ r)) /\
  (forall x y p, In (s_name x) tidy -> In (s_name y) tidy -> In p [lit "fiver"; lit "hazel"] ->
     names_range p (s_name x) (s_start x) (s_end x) -> names_range p (s_name y) (s_start y) (s_end y) -> within x y \/ within y x \/ separate x y) /\
  (forall f h, In (s_name f) tidy -> In (s_name h) tidy -> names_range (lit "fiver") (s_name f) (s_start f) (s_end f) ->
     names_range (lit "hazel") (s_name h) (s_start h) (s_end h) -> within f h \/ separate f h).
Proof. exact tidy_ok. Qed.
(** C21: the order of removal matters; the same files removed in another order can leave a
    directory that is refused. *)
Theorem C21_order_refuted : exists names shards merges removed n, recover sort_shards merge_shards names = Some (shards, merges, removed) /\
  In n removed /\ recover sort_shards merge_shards (without names [n]) = None.
Proof. destruct knot_order as (a & b & c & H & K & L). exists knot, a, b, c, (lit "fiver.0.4"). auto. Qed.
Print Assumptions C21_order_refuted.
