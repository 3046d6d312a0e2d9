(** A concrete store: five transactions, merged in memory, opened again, written to files
    and merged there after a crash. *)
From Verif Require Import Base Bytes HopperModel ArrayDefs GclSpec VectorModel CodecModel CodecSpec CodecProofs BitsProofs
  PostingModel PostingSpec PostingProofs PostingIO PostingWitness ShardModel ShardSpec ShardProofs TokenModel TokenSpec TextModel TextSpec TextBack LexCut
  HazelModel HazelSpec HazelWitness FileModel FileSpec FileWitness TextWitness OwslaModel OwslaSpec.

Lemma null_stores : stores_text null_compressor.
Proof. intros b H. split; [cbn; lia|apply null_lossless, H]. Qed.
Lemma ascii_cut_law : cut_law (ascii_starts false).
Proof. exact (ascii_cut false). Qed.

(** Everything a transaction adds, as a list. *)
Fixpoint occ_tokens (tk : bytes -> list token) (starts : bytes -> list Z) (w : Z) (done es : list edit) : list (Z * iv) :=
  match es with
  | [] => []
  | e :: r => (match e with
               | Append t => map (fun k => (t_feature k, Iv (w + token_count starts done + t_address k) (w + token_count starts done + t_address k) 0)) (tk t)
               | Annotate f p q v => [(f, Iv (fst (TextSpec.moved w p q)) (snd (TextSpec.moved w p q)) v)]
               | Erase p q => [(null_feature, Iv (fst (TextSpec.moved w p q)) (snd (TextSpec.moved w p q)) 0)]
               end) ++ occ_tokens tk starts w (done ++ [e]) r
  end.
Definition occ_list tk starts transaction es w : list (Z * iv) :=
  occ_tokens tk starts w [] es ++ [(transaction, Iv w (w + token_count starts es - 1) 0)].
Lemma occ_edit tk starts w e x r : forall es done, es = x ++ e :: r ->
  forall y, In y (match e with
               | Append t => map (fun k => (t_feature k, Iv (w + token_count starts (done ++ x) + t_address k) (w + token_count starts (done ++ x) + t_address k) 0)) (tk t)
               | Annotate f p q v => [(f, Iv (fst (TextSpec.moved w p q)) (snd (TextSpec.moved w p q)) v)]
               | Erase p q => [(null_feature, Iv (fst (TextSpec.moved w p q)) (snd (TextSpec.moved w p q)) 0)]
               end) -> In y (occ_tokens tk starts w done es).
Proof.
  induction x as [|c x IH]; intros es done -> y Hy; cbn [app occ_tokens]; apply in_or_app; [left; rewrite app_nil_r in Hy; exact Hy|right].
  apply IH; [reflexivity|]. rewrite <- app_assoc. exact Hy.
Qed.
Lemma occurs_listed tk starts transaction es w f x : occurs tk starts transaction es w f x -> 
  (0 < token_count starts es \/ f <> transaction \/ True) -> In (f, x) (occ_list tk starts transaction es w).
Proof.
  intros H _. unfold occ_list. apply in_or_app. inversion H as [es1 t es2 tok E1 E2 E3|? p q v E1 E2|p q E1|E1 E2]; subst.
  - left. apply (occ_edit tk starts w (Append t) es1 es2 _ [] eq_refl). cbn [app]. apply in_map_iff. exists tok. auto.
  - left. apply in_split in E1. destruct E1 as (u & v' & E). apply (occ_edit tk starts w _ u v' es [] E). left. reflexivity.
  - left. apply in_split in E1. destruct E1 as (u & v' & E). apply (occ_edit tk starts w _ u v' es [] E). left. reflexivity.
  - right. left. reflexivity.
Qed.
Definition tidy1 (l : list (Z * iv)) (r : Z * iv) : bool :=
  let x := snd r in (0 <=? fst r) && (fst r <? maxf) && (ip x <=? iq x) && (iq x <? maxf) && (0 <=? ip x) && (minf <=? ivl x) && (ivl x <=? maxf) &&
  forallb (fun s => negb (fst s =? fst r) || negb (ip (snd s) =? ip x) || ((iq (snd s) =? iq x) && (ivl (snd s) =? ivl x))) l.
Definition has_text (starts : bytes -> list Z) (es : list edit) : bool := 0 <? token_count starts es.
Lemma tidy_check tk starts chunk transaction es w :
  (let l := if has_text starts es then occ_list tk starts transaction es w else occ_tokens tk starts w [] es in forallb (tidy1 l) l) = true -> tidy tk starts chunk transaction es w.
Proof.
  set (l := if has_text starts es then occ_list tk starts transaction es w else occ_tokens tk starts w [] es).
  assert (K : forall f x, occurs tk starts transaction es w f x -> In (f, x) l).
  { intros f x H. unfold l, has_text. destruct (Z.ltb_spec 0 (token_count starts es)) as [T|T]; [apply occurs_listed; auto|].
    pose proof (occurs_listed tk starts transaction es w f x H (or_intror (or_intror Logic.I))) as Q. unfold occ_list in Q. apply in_app_or in Q. destruct Q as [Q|[Q|[]]]; [exact Q|].
    inversion H as [es1 t es2 tok E1 E2 E3|? p q v E1 E2|p q E1|E1 E2]; subst; [| | |lia].
    - apply (occ_edit tk starts w (Append t) es1 es2 _ [] eq_refl). cbn [app]. apply in_map_iff. exists tok. auto.
    - apply in_split in E1. destruct E1 as (u & v' & E). apply (occ_edit tk starts w _ u v' es [] E). left. reflexivity.
    - apply in_split in E1. destruct E1 as (u & v' & E). apply (occ_edit tk starts w _ u v' es [] E). left. reflexivity. }
  cbv zeta. intros C f x _ H. rewrite forallb_forall in C. pose proof (C _ (K f x H)) as T. unfold tidy1 in T. cbn [fst snd] in T.
  repeat (apply andb_prop in T; destruct T as [T ?]). unfold finite, is_addr, minf in *. repeat split; try lia.
  intros y Hy E. match goal with H : forallb _ l = true |- _ => rewrite forallb_forall in H; specialize (H _ (K f y Hy)); cbn [fst snd] in H end.
  destruct x as [p q v], y as [p' q' v']. cbn [ip iq ivl] in *. f_equal; lia.
Qed.
Lemma count_sum ix f : fiver_count ix f <= fold_right (fun r n => Z.of_nat (length (postings (snd r))) + n) 0 ix.
Proof.
  unfold fiver_count. induction ix as [|[g p] r IH]; cbn [find_posting fold_right snd]; [lia|]. destruct (g =? f); [|lia].
  unfold psize, len. assert (forall l : index, 0 <= fold_right (fun r n => Z.of_nat (length (postings (snd r))) + n) 0 l) as N by (induction l; cbn [fold_right]; lia). specialize (N r). lia.
Qed.

Definition store : list (list edit) :=
  [[Append (lit "alpha beta"); Annotate 7 staging (staging + 1) 5]; [Erase 1 1]; [Append (lit "gamma, delta"); Append (lit "beta")];
   [Append (lit "epsilon beta"); Annotate 7 3 6 9]; [Append (lit "zeta alpha")]].
Definition shards : list fiver := shards_of store.
Definition shard (i : nat) : fiver := nth i shards (Fiver [] [] 0 0).
Lemma store_counts f : bigwig_count (ixs shards) f <= big.
Proof.
  assert (K : bigwig_count (ixs shards) f <= fold_right (fun ix n => fold_right (fun r n => Z.of_nat (length (postings (snd r))) + n) 0 ix + n) 0 (ixs shards)).
  { unfold bigwig_count. induction (ixs shards) as [|ix r IH]; cbn [fold_right]; [lia|]. pose proof (count_sum ix f). lia. }
  eapply Z.le_trans; [exact K|]. vm_compute. discriminate.
Qed.
Lemma store_ok : start_ok tok1 (ascii_ends false) (ascii_starts false) 99 98 isort 0 9 store shards.
Proof.
  split; [apply commit1_ok with (seq := 0); vm_compute; reflexivity|]. split; [lia|]. split; [vm_compute; discriminate|]. split.
  - repeat (apply Forall_cons; [split; [edits|split; [first [left; vm_compute; reflexivity|right; vm_compute; reflexivity]|vm_compute; discriminate]]|]). apply Forall_nil.
  - split; [repeat (split; [apply tidy_check; vm_compute; reflexivity|]); exact Logic.I|]. split; [|split; [vm_compute; discriminate|exact store_counts]].
    apply Forall_forall. intros c Hc. vm_compute in Hc. repeat (destruct Hc as [<-|Hc]; [unfold is_byte; lia|]). destruct Hc.
Qed.

(** * Its life *)
Notation ocp := post_compressor.
Notation ocf := (tfdf_compressor false).
Notation oct := null_compressor.
Definition write1 (w : fiver) : bytes := match hazel_file ocp ocf oct 99 wdna 10 w with Ok (Some f) => f | _ => [] end.
Definition open1 (f : bytes) : hidx * htxt :=
  match open_file ocp ocf 99 f with Ok (Some (h, x, _)) => (h, x) | _ => (Hidx [] 0 [], Htxt [] 0 0 0 [] 0 0) end.
Definition opens1 (f : bytes) : bool := match open_file ocp ocf 99 f with Ok (Some _) => true | _ => false end.
Lemma open1_ok f : opens1 f = true -> exists s, open_file ocp ocf 99 f = Ok (Some (fst (open1 f), snd (open1 f), s)).
Proof. unfold opens1, open1. destruct (open_file ocp ocf 99 f) as [[[[h x] s]|]| |]; try discriminate. exists s. reflexivity. Qed.
Lemma opened1 fs : forallb opens1 fs = true -> opened_files ocp ocf 99 fs (map (fun f => fst (open1 f)) fs) (map (fun f => snd (open1 f)) fs).
Proof.
  induction fs as [|f fs IH]; cbn [forallb map]; intros H; [constructor|]. apply andb_prop in H. destruct H as [H1 H2].
  destruct (open1_ok f H1) as [s E]. econstructor; [exact E|exact (IH H2)].
Qed.
Definition m01 : fiver := Eval vm_compute in merged_of [shard 0; shard 1].
Definition jar01 : bytes := Eval vm_compute in match pickle ocp ocf oct m01 with Ok b => b | _ => [] end.
Definition m01' : fiver := Eval vm_compute in match unpickle ocp ocf oct jar01 with Ok (Some w) => w | _ => Fiver [] [] 0 0 end.
Definition old_files : list bytes := Eval vm_compute in [write1 m01'; write1 (shard 2); write1 (shard 3)].
Definition old_hs : list hidx := Eval vm_compute in map (fun f => fst (open1 f)) old_files.
Definition old_xs : list htxt := Eval vm_compute in map (fun f => snd (open1 f)) old_files.
Definition old_acts : list act := Eval vm_compute in match idx_merge ocp ocf 99 old_hs (map ht_raw old_xs) (Files None None) with Ok (Some (a, _)) => a | _ => [] end.
Definition old_blob : bytes := Eval vm_compute in match idx_merge ocp ocf 99 old_hs (map ht_raw old_xs) (Files None None) with Ok (Some (_, b)) => b | _ => [] end.
Definition cut_file (n : nat) (b : option bytes) : option bytes := option_map (firstn n) b.
Definition old_crash : files := Eval vm_compute in
  Files (cut_file 90 (pst (exec (Files None None) old_acts))) (cut_file 70 (dct (exec (Files None None) old_acts))).
Definition new_acts : list act := Eval vm_compute in match idx_merge ocp ocf 99 old_hs (map ht_raw old_xs) old_crash with Ok (Some (a, _)) => a | _ => [] end.
Definition new_blob : bytes := Eval vm_compute in match idx_merge ocp ocf 99 old_hs (map ht_raw old_xs) old_crash with Ok (Some (_, b)) => b | _ => [] end.
Definition new_file1 : bytes := Eval vm_compute in match merged_file wdna new_blob old_xs with Ok (Some f) => f | _ => [] end.
Definition grown : list stored := [File new_file1; Mem (shard 4)].

Lemma one_step a b c : life_step ocp ocf oct isort 99 a b -> life ocp ocf oct isort 99 b c -> life ocp ocf oct isort 99 a c.
Proof. apply Lives. Qed.
Lemma write_step before w after f : hazel_file ocp ocf oct 99 wdna 10 w = Ok (Some f) -> len f <= maxf ->
  life_step ocp ocf oct isort 99 (before ++ Mem w :: after) (before ++ File f :: after).
Proof. intros E L. apply (Written _ _ _ _ _ before w after wdna 10 f); [exact wdna_ok|vm_compute; discriminate|exact E|exact L]. Qed.
Lemma old_crashed : attempts ocp ocf 99 old_hs (map ht_raw old_xs) old_crash.
Proof.
  apply (Lost_data _ _ _ _ _ (exec (Files None None) old_acts)).
  - apply (Crashed_attempt _ _ _ _ _ (Files None None) old_acts old_blob); [constructor|vm_compute; reflexivity|].
    pose proof (Crash_between (Files None None) old_acts []) as K. rewrite app_nil_r in K. exact K.
  - split; (eexists; split; [vm_compute; reflexivity|]; eexists; vm_compute; reflexivity).
Qed.
Lemma store_life : life ocp ocf oct isort 99 (map Mem shards) grown.
Proof.
  assert (E : map Mem shards = [] ++ map Mem [shard 0; shard 1] ++ map Mem [shard 2; shard 3; shard 4]) by (vm_compute; reflexivity).
  rewrite E. clear E. eapply Lives; [apply (Merged_in_memory _ _ _ _ _ [] [shard 0; shard 1] (map Mem [shard 2; shard 3; shard 4]) m01); vm_compute; reflexivity|].
  eapply Lives; [apply (Opened_again _ _ _ _ _ [] m01 (map Mem [shard 2; shard 3; shard 4]) jar01 m01'); vm_compute; try discriminate; try reflexivity; split; discriminate|].
  eapply Lives; [apply (write_step [] m01' (map Mem [shard 2; shard 3; shard 4]) (nth 0 old_files [])); vm_compute; [reflexivity|discriminate]|].
  cbn [app map]. eapply Lives; [apply (write_step [File (nth 0 old_files [])] (shard 2) (map Mem [shard 3; shard 4]) (nth 1 old_files [])); vm_compute; [reflexivity|discriminate]|].
  cbn [app map]. eapply Lives; [apply (write_step [File (nth 0 old_files []); File (nth 1 old_files [])] (shard 3) (map Mem [shard 4]) (nth 2 old_files [])); vm_compute; [reflexivity|discriminate]|].
  assert (E : [File (nth 0 old_files []); File (nth 1 old_files [])] ++ File (nth 2 old_files []) :: map Mem [shard 4] = [] ++ map File old_files ++ map Mem [shard 4]) by reflexivity.
  rewrite E. clear E. eapply Lives; [|constructor].
  apply (Merged_files _ _ _ _ _ [] old_files (map Mem [shard 4]) old_hs old_xs wdna old_crash new_acts new_blob new_file1).
  - pose proof (opened1 old_files) as K. assert (E1 : map (fun f => fst (open1 f)) old_files = old_hs) by (vm_compute; reflexivity).
    assert (E2 : map (fun f => snd (open1 f)) old_files = old_xs) by (vm_compute; reflexivity). rewrite E1, E2 in K. apply K. vm_compute. reflexivity.
  - exact old_crashed.
  - vm_compute. reflexivity.
  - intros acts0 idx0 H. assert (E : idx_merge ocp ocf 99 old_hs (map ht_raw old_xs) (Files None None) = Ok (Some (old_acts, old_blob))) by (vm_compute; reflexivity).
    rewrite E in H. injection H as _ <-. vm_compute. discriminate.
  - exact wdna_ok.
  - vm_compute. reflexivity.
  - vm_compute. discriminate.
Qed.
Lemma store_crash : old_crash <> Files None None /\ old_crash <> exec (Files None None) old_acts /\ new_acts <> old_acts /\ new_blob = old_blob /\ length (concat (map ht_map old_xs)) = 3%nat.
Proof. split; [discriminate|]. split; [vm_compute; discriminate|]. split; [discriminate|]. split; reflexivity. Qed.
Lemma store_erases : erases_apart (ascii_starts false) store 0.
Proof.
  assert (K : forall x, erase_at (ascii_starts false) store 0 x -> x = Iv 1 1 0).
  { intros x (es & w & p & q & Hp & He & ->). cbn [placed store] in Hp.
    repeat (destruct Hp as [[-> ->]|Hp]; [cbn in He; repeat (destruct He as [He|He]; [try discriminate He; injection He as <- <-; reflexivity|]); destruct He|]). destruct Hp. }
  intros d e Hd He _. rewrite (K d Hd), (K e He). reflexivity.
Qed.
Lemma store_words : only_tokens 98 store (feat1 (lit "beta")).
Proof.
  split; [vm_compute; discriminate|]. intros es p q v He H. cbn [store In] in He.
  repeat (destruct He as [<-|He]; [cbn [In] in H; repeat (destruct H as [H|H]; [try discriminate H; injection H as E _ _ _; vm_compute in E; discriminate E|]); destruct H|]). destruct He.
Qed.
(** What is seen of it. *)
Definition see (l : list stored) (f : Z) (h : list (meth * Z)) (r : list (Z * Z)) : res (option (list iv * list bytes * Z)) :=
  let* v := open_view ocp ocf 99 l in
  match v with
  | None => Ok None
  | Some os => let* o := view_hopper ocp ocf os f in
               let* a := run (projT1 o) (projT2 o) h in
               let* t := view_translate_all oct (skip false) os r in
               let* n := view_tokens os in Ok (Some (a, t, n))
  end.
Lemma store_seen : see grown (feat1 (lit "beta")) [(Mtau, 0); (Mtau, 5); (Mtau, 7)] [(0, 3); (4, 4); (7, 20)] =
  Ok (Some ([Iv 4 4 0; Iv 6 6 0; Iv maxf maxf 0], [lit "alpha beta" ++ nl ++ lit "gamma, delta" ++ nl; lit "beta" ++ nl; lit "zeta alpha" ++ nl], 9)).
Proof. vm_compute. reflexivity. Qed.
