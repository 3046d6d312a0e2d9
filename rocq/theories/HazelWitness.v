(** A concrete Hazel merge: two shards with a list, a plain list, erased ranges and
    text chunks. *)
From Verif Require Import Base HopperModel ArrayDefs GclSpec Bytes CodecModel CodecSpec CodecProofs BitsProofs
  PostingModel PostingSpec PostingProofs PostingIO PostingWitness ShardModel ShardSpec ShardProofs HazelModel HazelSpec HazelProofs HazelMerge.

Definition mk (f : Z) (xs : list iv) : Z * posting := (f, fold_left push xs (posting_from_feature f)).
Definition wcp := post_compressor.
Definition wcf := tfdf_compressor false.
Definition wchunk : Z := 20.
Definition wix1 : index := [mk 0 [Iv 5 8 0]; mk 7 [Iv 1 1 0; Iv 6 6 0; Iv 9 12 3]; mk 20 [Iv 0 12 0]].
Definition wix2 : index := [mk 7 [Iv 15 15 0]; mk 9 [Iv 14 14 0]; mk 20 [Iv 13 30 0]].
Definition wlen : list Z := [60; 80].
Definition wfile (ix : index) : bytes := match write_idx_blob wcp wcf [1; 2; 3] ix with Ok (b, _, _) => b | _ => [] end.
Definition wload (ix : index) : hidx :=
  match load (wfile ix ++ [9]) 3 (len (wfile ix) - 3) with Ok (Some h) => h | _ => Hidx [] 0 [] end.
Definition whs : list hidx := [wload wix1; wload wix2].
(** The whole merge, and one that starts from what a crash left. *)
Definition wfirst := idx_merge wcp wcf wchunk whs wlen (Files None None).
Definition wacts : list act := match wfirst with Ok (Some (a, _)) => a | _ => [] end.
Definition wblob : bytes := match wfirst with Ok (Some (_, b)) => b | _ => [] end.
Definition wcrash : files := Files (Some (firstn 60 (match pst (exec (Files None None) wacts) with Some b => b | None => [] end)))
                                   (Some (firstn 55 (match dct (exec (Files None None) wacts) with Some b => b | None => [] end))).

Lemma wstores : stores_lists wcp wcf. Proof. exact standard_storable. Qed.
Lemma mk_ok f xs : 0 <= f < maxf -> xs <> [] -> gcdup xs -> Forall value_ok xs -> Forall clean_at xs -> row_ok (mk f xs).
Proof.
  intros Rf N G V C. unfold mk. 
  assert (Pv : Forall (fun x => ip x <= iq x /\ value_ok x) xs).
  { rewrite Forall_forall in *. intros x H. split; [exact (proj1 (proj2 (ArrayProofs.gcdup_finite _ x G H)))|apply V, H]. }
  destruct (fold_push_holds _ Pv _ _ (feature_holds f)) as [Hm Fm]. cbn [app] in Hm.
  split; [exact Rf|]. cbn [fst snd]. split; [split; [exact Fm|exists xs; auto]|].
  intros i x Hx. rewrite Forall_forall in C. apply C. apply (holds_In _ _ x Hm). exists i. exact Hx.
Qed.
Ltac row := apply mk_ok; [unfold maxf; lia|discriminate|cbn; unfold finite, minf, maxf; cbn; lia|
  repeat constructor; unfold value_ok, minf; cbn; lia|repeat constructor; unfold minf, maxf; cbn; lia].
Lemma wix_ok : Forall index_ok [wix1; wix2].
Proof.
  constructor; [|constructor; [|constructor]]; (split; [cbn; lia|]); repeat (constructor; [row|]); constructor.
Qed.
Lemma wload_eq ix : (exists h, load (wfile ix ++ [9]) 3 (len (wfile ix) - 3) = Ok (Some h)) ->
  load (wfile ix ++ [9]) 3 (len (wfile ix) - 3) = Ok (Some (wload ix)).
Proof. intros [h E]. unfold wload. rewrite E. reflexivity. Qed.
Lemma wshelved : Forall2 (shelved wcp wcf) [wix1; wix2] whs.
Proof.
  constructor; [|constructor; [|constructor]];
  (exists [1; 2; 3], [9]; match goal with |- context [wload ?ix] => exists (skipn 3 (wfile ix)) end;
   split; [vm_compute; reflexivity|]; split; [vm_compute; discriminate|]; vm_compute; reflexivity).
Qed.
Lemma find_mk f xs ix g : find_posting (mk f xs :: ix) g = if f =? g then Some (snd (mk f xs)) else find_posting ix g.
Proof. reflexivity. Qed.
Lemma mk_stored f xs p i x : Forall (fun x => ip x <= iq x /\ value_ok x) xs -> Some (snd (mk f xs)) = Some p -> get p i = Ok (Some x) -> In x xs.
Proof.
  intros Pv E G. injection E as <-. destruct (fold_push_holds _ Pv _ _ (feature_holds f)) as [Hm _]. cbn [app] in Hm.
  apply (holds_In _ _ x Hm). exists i. exact G.
Qed.
Lemma wchunks1 x : stored_in wix1 wchunk x -> x = Iv 0 12 0.
Proof.
  intros (p & i & F & G). change (Some (snd (mk 20 [Iv 0 12 0])) = Some p) in F.
  apply (mk_stored 20 [Iv 0 12 0] p i x) in G; [destruct G as [<-|[]]; reflexivity|repeat constructor; unfold value_ok, minf; cbn; lia|exact F].
Qed.
Lemma wchunks2 x : stored_in wix2 wchunk x -> x = Iv 13 30 0.
Proof.
  intros (p & i & F & G). change (Some (snd (mk 20 [Iv 13 30 0])) = Some p) in F.
  apply (mk_stored 20 [Iv 13 30 0] p i x) in G; [destruct G as [<-|[]]; reflexivity|repeat constructor; unfold value_ok, minf; cbn; lia|exact F].
Qed.
Lemma wapart : chunks_apart wchunk [wix1; wix2].
Proof.
  intros i j a b x y L A B Sx Sy. destruct i as [|[|i]]; [|destruct j as [|[|j]]; [lia|lia|destruct j; discriminate]|destruct i; discriminate].
  destruct j as [|[|j]]; [lia| |destruct j; discriminate]. injection A as <-. injection B as <-.
  apply wchunks1 in Sx. apply wchunks2 in Sy. subst. cbn. lia.
Qed.
Lemma wfits : merge_fits wchunk [wix1; wix2] wlen.
Proof.
  split; [|split; [reflexivity|]].
  - intros f. unfold bigwig_count, fiver_count, wix1, wix2. cbn [fold_right]. rewrite !find_mk. cbn [find_posting].
    repeat match goal with |- context [if ?c then _ else _] => destruct c end; vm_compute; discriminate.
  - intros x [(v & E & S)|[(v & E & S)|[]]].
    + apply wchunks1 in S. injection S as _ _ ->. unfold is_addr, value_ok, minf, maxf. rewrite E. lia.
    + apply wchunks2 in S. injection S as _ _ ->. unfold is_addr, value_ok, minf, maxf. rewrite E. lia.
Qed.
(** The crash left half a record; the next attempt ends with the same blob. *)
Lemma wresume : attempts wcp wcf wchunk whs wlen wcrash /\ wcrash <> exec (Files None None) wacts /\ wcrash <> Files None None /\
  exists acts, idx_merge wcp wcf wchunk whs wlen wcrash = Ok (Some (acts, wblob)) /\ acts <> wacts /\ len wblob = 313.
Proof.
  split.
  - apply (Lost_data wcp wcf wchunk whs wlen (exec (Files None None) wacts)).
    + apply (Crashed_attempt wcp wcf wchunk whs wlen (Files None None) wacts wblob); [constructor|vm_compute; reflexivity|].
      pose proof (Crash_between (Files None None) wacts []) as K. rewrite app_nil_r in K. exact K.
    + split; (eexists; split; [vm_compute; reflexivity|]; eexists; vm_compute; reflexivity).
  - split; [vm_compute; discriminate|]. split; [discriminate|]. eexists. split; [vm_compute; reflexivity|]. split; [vm_compute; discriminate|]. vm_compute. reflexivity.
Qed.
Lemma wmerged : exists h, load wblob 0 (len wblob) = Ok (Some h) /\
  hazel_vocab h = 4 /\ hazel_count h 0 = Ok 1 /\ hazel_count h 7 = Ok 3 /\ hazel_count h 9 = Ok 1 /\ hazel_count h 8 = Ok 0 /\ hazel_count h 20 = Ok 2 /\
  (exists p, hazel_posting wcp wcf h 7 = Ok (Some p) /\ contents p = Ok [Iv 1 1 0; Iv 9 12 3; Iv 15 15 0]) /\
  (exists p, hazel_posting wcp wcf h 20 = Ok (Some p) /\ contents p = Ok [Iv 0 12 0; Iv 13 30 60]).
Proof.
  eexists. split; [vm_compute; reflexivity|]. repeat (split; [vm_compute; reflexivity|]).
  split; eexists; (split; [vm_compute; reflexivity|]); vm_compute; reflexivity.
Qed.
Lemma wwritable : writable wcp wcf wix1.
Proof.
  apply index_writable; [exact wstores|exact (Forall_inv wix_ok)|]. intros f. pose proof (proj1 wfits f) as K.
  pose proof (count_each [wix1; wix2] f wix1 (or_introl eq_refl) wix_ok). lia.
Qed.
