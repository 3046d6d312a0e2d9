(** C62 and C63: the files of a working directory, and sorting files of records. *)
From Coq Require Import Permutation Sorted Lia.
From Verif Require Import Base Bytes CodecModel CodecSpec WorkModel WorkSpec WorkProofs SortModel SortSpec SortProofs.

(** C62: what is appended to a file of a working directory, in any pieces, is what requests read
    back, in any pieces.  Missing: amounts and positions from 2^63 on (see C62_huge_refuted), and
    a start elsewhere than at the end of the last request for compressed files, which the code
    does not offer. *)
Theorem C62_same_partial : forall zlib recipe texts requests, good_zlib zlib -> Forall (Forall is_byte) texts ->
  In recipe plain_recipes /\ Forall (below (2 ^ 63)) requests \/ In recipe compressed_recipes /\ Forall in_turn requests ->
  exists f, write_file zlib recipe texts = Ok (Some f) /\
    (len f < 2 ^ 63 -> read_file zlib recipe (Some f) requests = Ok (Some (served (concat texts) 0 requests))).
Proof. exact same_ok. Qed.
Print Assumptions C62_same_partial.
Example C62_same_ex : good_zlib w_zlib /\ Forall (Forall is_byte) w_texts /\ let q := [Next 3; Next 0; Next 299; Next 100; Next 1] in
  Forall in_turn q /\ match write_file w_zlib (lit "compression test") w_texts with Ok (Some f) => len f = 331 /\
    read_file w_zlib (lit "compression test") (Some f) q = Ok (Some [lit "one"; []; 32 :: repeat 120 298; [120; 120; 101; 110; 100]; []]) | _ => False end.
Proof. exact (conj w_zlib_good (conj w_texts_ok w_requests)). Qed.
(** C62: a temporary name is not given twice.  Missing: from the call 2^32 on (C62_wrap_refuted). *)
Theorem C62_temporary_partial : forall w extensions, len extensions <= 2 ^ 32 -> NoDup (make_temps w extensions 0).
Proof. exact temps_distinct. Qed.
Print Assumptions C62_temporary_partial.
Example C62_temporary_ex : make_temps (lit "d") [[]; lit "x"; []] 0 = [lit "d/temp.00000000"; lit "d/temp.00000001.x"; lit "d/temp.00000002"].
Proof. vm_compute. reflexivity. Qed.
(** C62: temporary names have the form by which they are told from other files. *)
Theorem C62_pattern : forall w extensions c x, In x (make_temps w extensions c) -> exists r, x = w ++ lit "/temp." ++ r.
Proof. exact temps_pattern. Qed.
Print Assumptions C62_pattern.
Example C62_pattern_ex : In (lit "d/temp.00000001.x") (make_temps (lit "d") [[]; lit "x"; []] 0).
Proof. vm_compute. auto. Qed.
(** C62: after 2^32 calls names come again. *)
Theorem C62_wrap_refuted : forall w e extensions, len extensions = 2 ^ 32 ->
  nth 0 (make_temps w (e :: extensions) 0) [] = nth (length extensions) (make_temps w (extensions ++ [e]) 0) [].
Proof. exact temps_wrap. Qed.
Print Assumptions C62_wrap_refuted.
Example C62_wrap_ex : exists extensions : list bytes, len extensions = 2 ^ 32.
Proof. exists (repeat [] (Z.to_nat (2 ^ 32))). unfold len. rewrite repeat_length, Z2Nat.id by lia. reflexivity. Qed.
(** C62: every recipe is accepted for reading, while only some are for writing; with one that is
    not, reading a plain file is undefined. *)
Theorem C62_recipe_refuted : forall zlib, writer_make (lit "typo") = None /\
  exists r, reader_make (lit "typo") (Some (lit "text")) = Some r /\ read_next zlib r 1 = UB.
Proof. exact any_recipe_refuted. Qed.
Print Assumptions C62_recipe_refuted.
(** C62: asking for all that is left by the largest amount is undefined after the first request. *)
Theorem C62_huge_refuted : forall zlib r, In r [lit "file"; lit "full"] ->
  read_file zlib r (Some (lit "text")) [Next 1; Next (2 ^ 64 - 1)] = UB.
Proof. exact huge_refuted. Qed.
Print Assumptions C62_huge_refuted.

(** C63: sorting a file of records, however many are sorted at a time, ends with a new temporary
    file of the same records in order and neither the input nor other temporary files, or, if a
    file cannot be created or written, with the input as it was.  Other files do not change.
    Missing: bytes lost only when a file is closed (C63_short_refuted), files without a record
    (C63_empty_refuted). *)
Theorem C63_sort_partial : forall k cmp sort lots how working input c fs rs file,
  (0 < k)%nat -> (0 < lots)%nat -> weak_order cmp -> sorts cmp sort -> (forall name n, how name <> Short n) ->
  fs input = Some file -> holds_records k rs file -> rs <> [] -> ~ temporary working c input ->
  0 <= c -> c + 2 * (len rs / Z.of_nat lots) + 3 < 2 ^ 32 ->
  exists answer c' fs', sort_records k cmp sort lots how working input c fs = Ok (answer, c', fs') /\
  ((forall name, how name = Whole) -> answer <> None) /\
  (forall name, ~ temporary working c name -> name <> input -> fs' name = fs name) /\
  match answer with
  | None => fs' input = fs input
  | Some out => temporary working c out /\ fs' input = None /\
      (exists l, fs' out = Some (concat l) /\ Permutation l rs /\ in_order cmp l) /\
      (forall d, c <= d < c' -> fst (make_temp working [] d) <> out -> fs' (fst (make_temp working [] d)) = None)
  end.
Proof. exact sort_ok. Qed.
Print Assumptions C63_sort_partial.
Example C63_sort_ex : sorts annotation_cmp w_sort /\ holds_records 32 w_rs (concat w_rs ++ [1; 2; 3]) /\ ~ temporary (lit "w") 0 (lit "in") /\
  match sort_annotations w_sort 2 (fun _ => Whole) (lit "w") (lit "in") 0 w_files with
  | Ok (Some out, c, fs) => out = lit "w/temp.00000004" /\ c = 5 /\ check_annotations (fs out) = true /\
      fs out = Some (concat [w_record 3 5 8; w_record 3 9 9; w_record 7 12 32; w_record 7 36 64; w_record 7 64 72])
  | _ => False end.
Proof. exact (conj w_sorts (conj w_holds (conj w_not_temporary w_sorted))). Qed.
(** C63: the orders of annotations and of tokens are orders, so that the sort applies to them. *)
Theorem C63_orders : weak_order annotation_cmp /\ weak_order tok_cmp.
Proof. exact (conj annotation_order tok_order). Qed.
Print Assumptions C63_orders.
(** C63: the check accepts a file of annotations exactly if its intervals are proper and in order,
    with none of a feature within another, and refuses when there is no file. *)
Theorem C63_check : check_annotations None = false /\ forall rs file, holds_records 32 rs file ->
  check_annotations (Some file) = true <-> Forall proper rs /\ StronglySorted earlier rs.
Proof. exact (conj eq_refl check_ok). Qed.
Print Assumptions C63_check.
Example C63_check_ex : holds_records 32 w_rs (concat w_rs ++ [1; 2; 3]) /\ check_annotations (Some (concat w_rs ++ [1; 2; 3])) = false.
Proof. split; [exact w_holds|vm_compute; reflexivity]. Qed.
(** C63: sorted, a file passes the check exactly if its intervals are proper and no two of a
    feature are nested or the same. *)
Theorem C63_sorted_check : forall sort lots how working input c fs rs file out c' fs',
  (0 < lots)%nat -> sorts annotation_cmp sort -> (forall name n, how name <> Short n) ->
  fs input = Some file -> holds_records 32 rs file -> rs <> [] -> ~ temporary working c input ->
  0 <= c -> c + 2 * (len rs / Z.of_nat lots) + 3 < 2 ^ 32 ->
  sort_annotations sort lots how working input c fs = Ok (Some out, c', fs') ->
  check_annotations (fs' out) = true <-> Forall proper rs /\ ForallOrdPairs apart rs.
Proof. exact sorted_file_check. Qed.
Print Assumptions C63_sorted_check.
(** C63: without an input nothing is done and the answer is false. *)
Theorem C63_missing : forall k cmp sort lots how working input c fs, fs input = None ->
  sort_records k cmp sort lots how working input c fs = Ok (None, c, fs).
Proof. exact missing_ok. Qed.
Print Assumptions C63_missing.
(** C63: a file without a record is removed, and the name given for the sorted file is empty. *)
Theorem C63_empty_refuted : forall k cmp sort lots how working input c fs file, (0 < k)%nat -> fs input = Some file -> holds_records k [] file ->
  exists fs', sort_records k cmp sort lots how working input c fs = Ok (Some [], c, fs') /\ fs' input = None /\ (forall name, name <> input -> fs' name = fs name).
Proof. exact empty_ok. Qed.
Print Assumptions C63_empty_refuted.
Example C63_empty_ex : holds_records 32 [] [].
Proof. split; [constructor|]. exists []. split; [reflexivity|cbn; lia]. Qed.
(** C63: bytes lost when a file is closed are not noticed, and the input is removed. *)
Theorem C63_short_refuted : exists how, (forall name, how name <> Cannot /\ forall n, how name <> Broken n) /\
  match sort_annotations w_sort 2 how (lit "w") (lit "in") 0 w_files with
  | Ok (Some out, _, fs) => fs (lit "in") = None /\ fs out = Some (w_record 3 5 8) | _ => False end.
Proof. exact short_refuted. Qed.
Print Assumptions C63_short_refuted.
