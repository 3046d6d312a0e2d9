(** C55: fast ids. *)
From Verif Require Import Base Bytes HopperModel GclSpec UnaryModel VectorModel RankSpec RankWitness CodecModel CodecSpec FastidModel FastidProofs FastidWitness.
From Verif Require JsonModel.

(** C55: making fast ids succeeds for a query that parses, and afterwards the text of every range
    of addresses is what it was, be it an id or not.  Missing, and refuted below: ids with a NUL
    byte in their text, more than 2^31 ids, and raw text. *)
Theorem C55_same_partial : forall tc junk translate g query C c SC ids,
  g <> [] -> query g = Some (existT St C c) -> answers C c SC -> listed SC ids ->
  let ts := id_texts translate ids in
  (forall x, In x ids -> 0 <= ip x) -> len ids <= 2147483648 -> len (concat ts) <= maxf -> (forall t, In t ts -> ~ In 0 t) ->
  lossless tc (concat ts) -> extra tc (len (concat ts)) <= maxf ->
  exists file f, fastid tc junk translate (Some g) query = Ok (Some file) /\ fast_make tc file = Ok f /\
    forall p q, fast_translate translate f p q = Ok (translate p q).
Proof. exact fastid_same. Qed.
Print Assumptions C55_same_partial.
Example C55_same_ex : answers _ (st idlist) (set_of idlist) /\ listed (set_of idlist) idlist /\ (forall x, In x idlist -> 0 <= ip x) /\
  (forall t, In t (id_texts idtext idlist) -> ~ In 0 t) /\ lossless null_compressor (concat (id_texts idtext idlist)).
Proof. exact ids_fine. Qed.
Example C55_same_run : fastid null_compressor zeros idtext (Some (lit "id:")) idquery = Ok (Some idfile) /\ length idfile = 63%nat /\
  fast_make null_compressor idfile = Ok (Fast 9 2 (lit "a2 a3 a6 ") [2; 6] [3; 6] [0; 6; 9]) /\
  fast_translate (fun _ _ => lit "?") idfast 2 3 = Ok (lit "a2 a3 ") /\ fast_translate (fun _ _ => lit "?") idfast 6 6 = Ok (lit "a6 ") /\
  fast_translate (fun _ _ => lit "?") idfast 2 4 = Ok (lit "?") /\ fast_translate (fun _ _ => lit "?") idfast 3 3 = Ok (lit "?").
Proof. exact fast_run. Qed.

(** C55: for the ids the text is not asked for again: they are answered from the file even when
    the wrapped text would answer otherwise. *)
Theorem C55_fast : forall tc junk translate g query C c SC ids,
  g <> [] -> query g = Some (existT St C c) -> answers C c SC -> listed SC ids ->
  let ts := id_texts translate ids in
  (forall x, In x ids -> 0 <= ip x) -> len ids <= 2147483648 -> len (concat ts) <= maxf -> (forall t, In t ts -> ~ In 0 t) ->
  lossless tc (concat ts) -> extra tc (len (concat ts)) <= maxf ->
  exists file f, fastid tc junk translate (Some g) query = Ok (Some file) /\ fast_make tc file = Ok f /\
    forall other x, In x ids -> fast_translate other f (ip x) (iq x) = Ok (translate (ip x) (iq x)).
Proof. exact fastid_fast. Qed.
Print Assumptions C55_fast.

(** C55: without an id query, or with one that does not parse, nothing is written. *)
Theorem C55_refused : forall tc junk translate query gcl,
  gcl = None \/ gcl = Some [] \/ (exists g, gcl = Some g /\ query g = None) -> fastid tc junk translate gcl query = Ok None.
Proof. exact fastid_refused. Qed.
Print Assumptions C55_refused.
Example C55_refused_ex : exists g, Some (lit "((") = Some g /\ (fun _ : bytes => @None hobj) g = None.
Proof. exists (lit "(("). split; reflexivity. Qed.

(** C55: a file of which only a part was written is read past its end: the parameter that says
    that there are fast ids is set before the file is closed. *)
Theorem C55_crash_refuted : forall tc junk translate g query C c SC ids,
  g <> [] -> query g = Some (existT St C c) -> answers C c SC -> listed SC ids ->
  let ts := id_texts translate ids in
  (forall x, In x ids -> 0 <= ip x) -> len ids <= 2147483648 -> len (concat ts) <= maxf -> (forall t, In t ts -> ~ In 0 t) ->
  lossless tc (concat ts) -> extra tc (len (concat ts)) <= maxf ->
  exists file, fastid tc junk translate (Some g) query = Ok (Some file) /\
    forall k, (k < length file)%nat -> fast_make tc (firstn k file) = UB.
Proof. exact fastid_crash. Qed.
Print Assumptions C55_crash_refuted.

(** C55: the text of an id is copied up to its first NUL byte; what follows it becomes whatever
    was in memory. *)
Theorem C55_nul_refuted : fastid null_compressor (fun _ => 120) nultext (Some (lit "id:")) idquery = Ok (Some nulfile) /\
  exists f, fast_make null_compressor nulfile = Ok f /\ nultext 2 3 = [97; 0; 98] /\ fast_translate nultext f 2 3 = Ok [97; 0; 120].
Proof. exact nul_run. Qed.
Print Assumptions C55_nul_refuted.

(** C55: with 2^32 to 2^33 ids the middle of the array does not fit into an int, and every
    translation reads before the array. *)
Theorem C55_many_refuted : forall translate f p q, 4294967296 < f_m f <= 8589934592 -> fast_translate translate f p q = UB.
Proof. exact many_ub. Qed.
Print Assumptions C55_many_refuted.
Example C55_many_ex : let f := Fast 0 5000000000 [] [] [] [] in 4294967296 < f_m f <= 8589934592.
Proof. cbn. lia. Qed.

(** C55: raw text is answered translated; for stored JSON that is another text. *)
Theorem C55_raw_refuted : forall tc junk translate g query C c SC ids,
  g <> [] -> query g = Some (existT St C c) -> answers C c SC -> listed SC ids ->
  let ts := id_texts translate ids in
  (forall x, In x ids -> 0 <= ip x) -> len ids <= 2147483648 -> len (concat ts) <= maxf -> (forall t, In t ts -> ~ In 0 t) ->
  lossless tc (concat ts) -> extra tc (len (concat ts)) <= maxf ->
  exists file f, fastid tc junk translate (Some g) query = Ok (Some file) /\ fast_make tc file = Ok f /\
    forall p q, fast_raw translate f p q = Ok (translate p q).
Proof. exact fastid_same. Qed.
Print Assumptions C55_raw_refuted.
Example C55_raw_ex : JsonModel.json_translate JsonModel.open_object = lit "{" /\ JsonModel.open_object <> lit "{".
Proof. split; [vm_compute; reflexivity|discriminate]. Qed.
