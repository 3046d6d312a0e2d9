(** Proofs: the files Fiver::hazel and Hazel::merge write, opened. *)
From Verif Require Import Base HopperModel ArrayDefs GclSpec UnaryProofs VectorModel Bytes CodecModel CodecSpec CodecProofs PostingModel PostingSpec ShardModel ShardSpec
  ShardProofs TokenModel TextModel TextSpec TextProofs HazelModel HazelSpec HazelProofs FileModel FileSpec FileProofs HazelText HazelWrite.

Lemma len_dictionary io il to tl io' il' to' tl' : len (blob_dictionary (named io il to tl)) = len (blob_dictionary (named io' il' to' tl')).
Proof. unfold blob_dictionary, named. cbn [flat_map]. rewrite !len_app, !entry_len, !len_word_bytes. reflexivity. Qed.

Section File.
Variables cp cf ct : compressor.
Variable chunk : Z.

(** A file with an index blob and a text blob, where both stand. *)
Definition shard_file (dna iblob tb : bytes) : bytes :=
  let io := len (file_head dna ++ blob_dictionary (named 0 0 0 0)) in
  file_head dna ++ blob_dictionary (named io (len iblob) (io + len iblob) (len tb)) ++ iblob ++ tb.

Lemma open_ok dna ix body d u b td target cs a e : no_empty_line dna -> writable cp cf ix -> laid cp cf header_length ix body d ->
  laid_text ct u b 0 0 td (len u) -> 0 < target <= maxf -> len u <= maxf ->
  contig cs a e -> 0 <= a -> e < maxf ->
  (forall pre post, exists o, hazel_hopper cp cf (hidx_of pre post body d) chunk = Ok o /\ answers (projT1 o) (projT2 o) (set_of cs)) ->
  let f := shard_file dna (blob_of body d) (tblob u b td target) in len f <= maxf ->
  exists h x o pre post, open_file cp cf chunk f = Ok (Some (h, x, (o, map (fun _ => None) td))) /\
    h = hidx_of pre post body d /\ len (blob_of body d) <= maxf /\ answers (projT1 o) (projT2 o) (set_of cs) /\ holds_text ct x u b /\
    ht_raw x = len u /\ ht_target x = target /\ ht_map x = td /\
    ht_first x = (if a <? e then a else maxf) /\ (a < e -> ht_last x = e - 1).
Proof.
  intros Hd W L Lt Tg Hu Cc Ha He Hop f Hf.
  set (io := len (file_head dna ++ blob_dictionary (named 0 0 0 0))) in *.
  set (ib := blob_of body d) in *. set (tb := tblob u b td target) in *.
  set (D := blob_dictionary (named io (len ib) (io + len ib) (len tb))).
  assert (Ef : f = file_head dna ++ D ++ ib ++ tb) by reflexivity.
  assert (LD : len (file_head dna ++ D) = io).
  { unfold io, D. rewrite !len_app, (len_dictionary io (len ib) (io + len ib) (len tb) 0 0 0 0). reflexivity. }
  pose proof (CodecProofs.len_nonneg (file_head dna ++ D)) as N1. pose proof (CodecProofs.len_nonneg ib) as N2. pose proof (CodecProofs.len_nonneg tb) as N3.
  assert (Lf : len f = io + len ib + len tb) by (rewrite Ef, app_assoc, !len_app, <- LD, len_app; lia).
  destruct (file_dictionary dna (named io (len ib) (io + len ib) (len tb)) (ib ++ tb) Hd) as (m & Em & Gm).
  { unfold named. repeat constructor; cbn [b_offset b_length b_name]; try lia; vm_compute; discriminate. }
  { vm_compute. discriminate. }
  unfold open_file. rewrite Ef. fold D in Em. rewrite Em. cbn [bind]. rewrite !Gm.
  assert (G1 : last_named (lit "idx") (named io (len ib) (io + len ib) (len tb)) = Some (Blob (lit "idx") io (len ib))) by (vm_compute; reflexivity).
  assert (G2 : last_named (lit "txt") (named io (len ib) (io + len ib) (len tb)) = Some (Blob (lit "txt") (io + len ib) (len tb))) by (vm_compute; reflexivity).
  rewrite G1, G2. cbn [b_offset b_length].
  pose proof (load_ok cp cf ix body d (file_head dna ++ D) tb L (proj2 W) ltac:(fold ib; lia)) as Ld. fold ib in Ld. rewrite LD, <- app_assoc in Ld.
  rewrite Ld. cbn [bind]. destruct (Hop (file_head dna ++ D) tb) as (o1 & Eo & Ao). unfold hidx_of in Eo. fold ib in Eo. rewrite LD, <- app_assoc in Eo. rewrite Eo. cbn [bind].
  pose proof (txt_load_ok ct u b td target ((file_head dna ++ D) ++ ib) [] Lt Tg Hu ltac:(fold tb; lia)) as Tl. fold tb in Tl.
  rewrite len_app, LD, app_nil_r, <- !app_assoc in Tl. unfold txt_make. rewrite Tl. cbn [bind].
  match goal with |- context [load_token_range ?X o1] => set (x0 := X) end.
  destruct (range_ok x0 o1 cs a e Ao Cc Ha He) as (o2 & Er & Ao2). rewrite Er. cbn [bind]. unfold x0. cbn [ht_file ht_start ht_raw ht_target ht_map].
  eexists _, _, o2, (file_head dna ++ D), tb. split; [reflexivity|].
  split; [unfold hidx_of; fold ib; rewrite LD, <- app_assoc; reflexivity|]. split; [fold ib; lia|]. split; [exact Ao2|]. split.
  - pose proof (loaded_holds ct u b td target ((file_head dna ++ D) ++ ib) [] (if a <? e then a else maxf) (if a <? e then e - 1 else maxf) Lt Hu) as K.
    fold tb in K. rewrite len_app, LD, app_nil_r, <- !app_assoc in K. exact K.
  - cbn [ht_raw ht_target ht_map ht_first ht_last]. do 4 (split; [reflexivity|]). intros K. replace (a <? e) with true by lia. reflexivity.
Qed.

(** What Fiver::hazel writes. *)
Lemma hazel_file_ok dna target w ix body d text (o : hobj) cs a e : ix = in_order (f_index w) -> laid cp cf header_length ix body d ->
  stores_text ct -> Forall is_byte text -> closed_text (f_text w) = text ->
  fiver_hopper (f_index w) chunk = Ok o -> answers (projT1 o) (projT2 o) (set_of cs) -> contig cs a e -> 0 <= a -> e <= maxf -> 0 < target ->
  Forall (fun x => 0 <= ivl x <= len text) cs -> match cs with [] => True | x :: _ => ivl x = 0 end ->
  exists b td, hazel_file cp cf ct chunk dna target w = Ok (Some (shard_file dna (blob_of body d) (tblob text b td target))) /\
    laid_text ct text b 0 0 td (len text) /\ (forall e, In e td -> te_raw e = len text \/ exists x, In x cs /\ te_raw e = ivl x).
Proof.
  intros Ei L Hct Hb Et Eo Ao Cc Ha He Htg Hv H0. unfold hazel_file. replace (target <=? 0) with false by lia. rewrite Et, <- Ei.
  set (out := file_head dna ++ blob_dictionary (named 0 0 0 0)).
  rewrite (write_blob_ok cp cf ix body d out L). cbn [bind]. rewrite Eo. cbn [bind].
  destruct (write_blob_text ct Hct text Hb (out ++ blob_of body d) o cs a e target Ao Cc Ha He Htg Hv H0) as (b & td & Ew & Lt & Al).
  rewrite Ew. cbn [bind]. exists b, td. split; [|split; [exact Lt|exact Al]]. f_equal. f_equal.
  unfold shard_file. fold out. rewrite len_app.
  unfold out at 1. rewrite <- !app_assoc. rewrite patch_middle by apply len_dictionary. reflexivity.
Qed.
(** What Hazel::merge writes. *)
Lemma merged_file_ok dna blob xs us target : Forall2 (fun x u => exists b, holds_text ct x u b) xs us -> Forall (fun x => ht_target x = target) xs ->
  (2 <= length xs)%nat -> len (concat us) <= maxf ->
  exists b td, merged_file dna blob xs = Ok (Some (shard_file dna blob (tblob (concat us) b td target))) /\
    laid_text ct (concat us) b 0 0 td (len (concat us)) /\
    (forall e, In e td -> exists k x e', nth_error xs k = Some x /\ In e' (ht_map x) /\ te_raw e = len (concat (firstn k us)) + te_raw e').
Proof.
  intros H Ht Hn Hl. unfold merged_file. set (out := file_head dna ++ blob_dictionary (named 0 0 0 0)).
  destruct (merge_blob_ok ct (out ++ blob) xs us target H Ht Hn Hl) as (b & td & E & Lt & Al). rewrite E. cbn [bind].
  set (tb := tblob (concat us) b td target) in *. pose proof (CodecProofs.len_nonneg tb).
  replace (len ((out ++ blob) ++ tb) - len (out ++ blob)) with (len tb) by (rewrite (len_app (out ++ blob)); lia).
  replace (len tb <? 0) with false by lia. exists b, td. split; [|split; [exact Lt|exact Al]]. f_equal. f_equal. unfold shard_file. fold out.
  replace (len (out ++ blob) - len out) with (len blob) by (rewrite len_app; lia). rewrite len_app.
  unfold out at 1. rewrite <- !app_assoc. rewrite patch_middle by apply len_dictionary. reflexivity.
Qed.
End File.
