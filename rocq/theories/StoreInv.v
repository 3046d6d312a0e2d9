(** The invariant of a running process. *)
From Verif Require Import Base Bytes NameModel NameSpec NameProofs RecoverAll StoreModel StoreSpec StoreDir.
From Coq Require Import Sorting.Sorted.

Definition owner (c : clone) : option (nat * txn) :=
  match c with
  | Idle | Open _ _ => None
  | Placed id x | Pickling id x _ | Ready id x _ | Failed id x | Committing id x _ => Some (id, x)
  end.
Definition kit (c : clone) : option txn :=
  match c with
  | Pickling _ x p => match p_stage p with Linked => Some x | _ => None end
  | Ready _ x _ => match t_data x with [] => None | _ => Some x end
  | Committing _ x _ => Some x
  | _ => None
  end.
Definition cjob (c : clone) : option nat := match c with Ready _ _ j | Committing _ _ j => j | _ => None end.
Definition linked (j : job) : bool := match j with Job _ _ _ JLinked | Job _ _ _ JClean => true | _ => false end.
Definition lead (m : mem) (c : clone) : option txn :=
  match c with
  | Committing _ x _ => Some x
  | Ready _ x (Some k) => if linked (m_jobs m k) then Some x else None
  | _ => None
  end.
Definition own_entry (id : nat) (x : txn) : entry := Entry id Kitten (t_seq x) (t_seq x) [x].
Definition xfile (x : txn) : file := Shard_ (t_seq x) (t_seq x) [x].
Definition clone_ok (m : mem) (d : dir) (i : nat) (c : clone) : Prop :=
  (forall id x, owner c = Some (id, x) -> In (own_entry id x) (m_entries m)) /\
  match c with
  | Open n _ => 0 <= n
  | Pickling _ x p => t_data x <> [] /\ p_dst p = kitten_name x /\ p_file p = xfile x /\ (p_stage p = Filled -> find d (p_src p) = Some (p_file p))
  | Ready _ x (Some k) => t_data x <> [] /\ exists is tmp seqs st, m_jobs m k = Job is tmp seqs st /\ In i is /\ In (t_seq x) seqs
  | Committing _ x j => t_data x <> [] /\ m_lock m = Some i /\ find d (fiver_name x) = Some (xfile x) /\
                        forall k, j = Some k -> exists is tmp seqs, m_jobs m k = Job is tmp seqs JClean /\ In i is /\ In (t_seq x) seqs
  | _ => True
  end.

Definition run_of (w : worker) : option (action * list entry) :=
  match w with WChosen a sel | WPickling a sel _ | WOutput a sel => Some (a, sel) | _ => None end.
Definition linkedw (w : worker) : option (action * list entry) :=
  match w with
  | WPickling a sel p => match p_stage p with Linked => Some (a, sel) | _ => None end
  | WOutput a sel => Some (a, sel)
  | _ => None
  end.
Definition in_kind (a : action) : kind := match a with HMerge => HazelK | _ => FiverK end.
(** The shards a worker merges are still there, next to each other. *)
Definition run_ok (m : mem) (a : action) (sel : list entry) : Prop :=
  sel <> [] /\ (a <> Convert -> (2 <= length sel)%nat) /\ (a = Convert -> length sel = 1%nat) /\
  (forall e, In e sel -> In e (m_entries m) /\ e_kind e = in_kind a /\ In (e_id e) (m_merging m)) /\
  StronglySorted (fun a b => e_end a < e_start b) sel /\
  (forall e, In e (m_entries m) -> In e sel \/ e_end e < sel_start sel \/ sel_end sel < e_start e).
(** A name within a shard, and not its file. *)
Definition beneath (m : mem) (n : bytes) : Prop :=
  exists k s e v, n = shard_name (kname k) s e /\ (k = FiverK \/ k = HazelK) /\ In v (m_entries m) /\ visible v = true /\
    e_start v <= s <= e /\ e <= e_end v /\ (k = HazelK -> e_kind v = HazelK) /\ (k, s, e) <> (e_kind v, e_start v, e_end v).
Definition worker_ok (m : mem) (d : dir) (w : worker) : Prop :=
  (forall a sel, run_of w = Some (a, sel) -> run_ok m a sel) /\
  (forall a sel, linkedw w = Some (a, sel) -> find d (out_name a sel) = Some (out_file sel)) /\
  match w with
  | WPickling a sel p => p_dst p = out_name a sel /\ p_file p = out_file sel /\ (p_stage p = Filled -> find d (p_src p) = Some (p_file p))
  | WDiscard ns => forall n, In n ns -> beneath m n
  | _ => True
  end.
Definition job_ok (m : mem) (d : dir) (k : nat) (j : job) : Prop :=
  match j with
  | JNone => True
  | Job is tmp seqs st =>
      NoDup is /\ (st = JTemp -> find d tmp = Some (Script seqs)) /\ (linked j = true -> find d (script_name k) = Some (Script seqs)) /\
      (forall s, In s seqs -> s < m_sequence m) /\ (forall i id x, owner (m_clones m i) = Some (id, x) -> In (t_seq x) seqs -> cjob (m_clones m i) = Some k)
  end.

Inductive who := Cl (i : nat) | Wk (w : nat) | Jb (k : nat).
Definition csrc (c : clone) : option bytes := match c with Pickling _ _ p => Some (p_src p) | _ => None end.
Definition wsrc (w : worker) : option bytes := match w with WPickling _ _ p => Some (p_src p) | _ => None end.
Definition jsrc (j : job) : option bytes := match j with Job _ tmp _ JTemp | Job _ tmp _ JLinked => Some tmp | _ => None end.
Definition src (m : mem) (a : who) : option bytes :=
  match a with Cl i => csrc (m_clones m i) | Wk w => wsrc (m_workers m w) | Jb k => jsrc (m_jobs m k) end.

(** Why a shard file is there. *)
Definition cover (m : mem) (k : kind) (s e : Z) : Prop :=
  (exists v, In v (m_entries m) /\ visible v = true /\ e_start v <= s /\ e <= e_end v /\ (k = HazelK -> e_kind v = HazelK)) \/
  (exists w a sel, linkedw (m_workers m w) = Some (a, sel) /\ k = out_kind a /\ s = sel_start sel /\ e = sel_end sel) \/
  (exists i id x j, m_clones m i = Committing id x j /\ k = FiverK /\ s = t_seq x /\ e = t_seq x).
(** Two shard files: one after the other, or one within the other. *)
Definition fits (k : kind) (s e : Z) (k' : kind) (s' e' : Z) : Prop :=
  e < s' \/ e' < s \/ (s' <= s /\ e <= e' /\ (k = HazelK -> k' = HazelK)) \/ (s <= s' /\ e' <= e /\ (k' = HazelK -> k = HazelK)).

Record Inv (m : mem) (d : dir) (g : list txn) : Prop := {
  i_seq : 0 <= m_sequence m <= maxf;
  i_nd : NoDup (names d);
  i_sorted : StronglySorted (fun a b => e_end a < e_start b) (m_entries m);
  i_ids : NoDup (map e_id (m_entries m));
  i_ent : forall v, In v (m_entries m) -> 0 <= e_start v <= e_end v /\ e_end v < m_sequence m /\ (e_id v < m_next m)%nat;
  i_vis : forall v, In v (m_entries m) -> visible v = true ->
            holds g (e_start v) (e_end v) (e_txns v) /\ find d (ename v) = Some (Shard_ (e_start v) (e_end v) (e_txns v));
  i_cl : forall i, clone_ok m d i (m_clones m i);
  i_own : forall i j id x y, owner (m_clones m i) = Some (id, x) -> owner (m_clones m j) = Some (id, y) -> i = j;
  i_kit : forall s f, find d (shard_name (lit "kitten") s s) = Some f <-> exists i x, kit (m_clones m i) = Some x /\ t_seq x = s /\ f = xfile x;
  i_wk : forall w, worker_ok m d (m_workers m w);
  i_dis : forall w w' a sel a' sel' e, run_of (m_workers m w) = Some (a, sel) -> run_of (m_workers m w') = Some (a', sel') -> In e sel -> In e sel' -> w = w';
  i_jb : forall k, job_ok m d k (m_jobs m k);
  i_src : forall a b n, src m a = Some n -> src m b = Some n -> a = b;
  i_tmp : forall a n, src m a = Some n -> (exists k, (k < m_temp m)%nat /\ n = temp_name k) \/
            (exists w sel p, a = Wk w /\ m_workers m w = WPickling HMerge sel p /\ n = hazel_sidecar_name (out_name HMerge sel) (lit "mrg"));
  i_sh : forall n f, find d n = Some f -> first n = 102 \/ first n = 104 -> exists k s e l, n = shard_name (kname k) s e /\ (k = FiverK \/ k = HazelK) /\
            0 <= s <= e /\ e < maxf /\ f = Shard_ s e l /\ holds g s e l /\ cover m k s e;
  i_lam : forall k s e f k' s' e' f', find d (shard_name (kname k) s e) = Some f -> find d (shard_name (kname k') s' e') = Some f' ->
            (k = FiverK \/ k = HazelK) -> (k' = FiverK \/ k' = HazelK) -> fits k s e k' s' e';
  i_scr : forall n f, find d n = Some f -> first n = 99 -> exists k is tmp seqs st, m_jobs m k = Job is tmp seqs st /\ linked (m_jobs m k) = true /\ n = script_name k /\ f = Script seqs;
  i_g : NoDup (map t_seq g) /\ forall x, In x g -> 0 <= t_seq x < m_sequence m;
  i_dur : forall x, In x g -> (exists v, In v (m_entries m) /\ visible v = true /\ e_start v <= t_seq x <= e_end v) \/ exists i, lead m (m_clones m i) = Some x;
  i_lead : forall i x, lead m (m_clones m i) = Some x -> In x g;
  i_fresh : forall i id x, owner (m_clones m i) = Some (id, x) -> lead m (m_clones m i) = None -> forall y, In y g -> t_seq y <> t_seq x
}.

(** * Consequences *)
Lemma sorted_two {A} (R : A -> A -> Prop) (l : list A) x y : StronglySorted R l -> In x l -> In y l -> x = y \/ R x y \/ R y x.
Proof.
  induction 1 as [|a l _ IH F]; [contradiction|]. rewrite Forall_forall in F. intros [->|Hx] [->|Hy]; auto.
Qed.
Lemma id_unique (l : list entry) a b : NoDup (map e_id l) -> In a l -> In b l -> e_id a = e_id b -> a = b.
Proof.
  induction l as [|e l IH]; cbn; [contradiction|]. intros N Ha Hb E. inversion N as [|? ? X Y]; subst.
  destruct Ha as [->|Ha], Hb as [->|Hb]; auto.
  - exfalso. apply X. rewrite E. apply in_map. exact Hb.
  - exfalso. apply X. rewrite <- E. apply in_map. exact Ha.
Qed.
Lemma visible_kind e : visible e = true <-> e_kind e = FiverK \/ e_kind e = HazelK.
Proof. unfold visible. destruct (e_kind e); cbn; split; intros H; try discriminate; auto; destruct H; discriminate. Qed.
Lemma in_kind_visible e a : e_kind e = in_kind a -> visible e = true.
Proof. intros H. apply visible_kind. destruct a; auto. Qed.
Lemma seq_unique (g : list txn) x y : NoDup (map t_seq g) -> In x g -> In y g -> t_seq x = t_seq y -> x = y.
Proof.
  induction g as [|e l IH]; cbn; [contradiction|]. intros N Ha Hb E. inversion N as [|? ? X Y]; subst.
  destruct Ha as [->|Ha], Hb as [->|Hb]; auto.
  - exfalso. apply X. rewrite E. apply in_map. exact Hb.
  - exfalso. apply X. rewrite <- E. apply in_map. exact Ha.
Qed.
Lemma kit_owner c x : kit c = Some x -> exists id, owner c = Some (id, x).
Proof.
  destruct c as [| |id y|id y p|id y j|id y|id y j]; cbn; try discriminate.
  - destruct (p_stage p); try discriminate. intros E. injection E as ->. eexists. reflexivity.
  - destruct (t_data y); try discriminate. intros E. injection E as ->. eexists. reflexivity.
  - intros E. injection E as ->. eexists. reflexivity.
Qed.
Lemma lead_owner m c x : lead m c = Some x -> exists id, owner c = Some (id, x).
Proof.
  destruct c as [| |id y|id y p|id y [j|]|id y|id y j]; cbn; try discriminate.
  - destruct (linked _); [|discriminate]. intros E. injection E as ->. eexists. reflexivity.
  - intros E. injection E as ->. eexists. reflexivity.
Qed.
(** A run of shards: its hull. *)
Lemma sel_hull sel : StronglySorted (fun a b : entry => e_end a < e_start b) sel -> (forall e, In e sel -> e_start e <= e_end e) ->
  forall e, In e sel -> sel_start sel <= e_start e /\ e_end e <= sel_end sel.
Proof.
  intros H W e He. split.
  - destruct sel as [|a sel]; [contradiction|]. cbn. inversion H as [|? ? A B]; subst. rewrite Forall_forall in B.
    destruct He as [->|He]; [lia|]. specialize (B e He). specialize (W a (or_introl eq_refl)). lia.
  - unfold sel_end. destruct sel as [|a sel] using rev_ind; [contradiction|]. rewrite rev_app_distr. cbn. clear IHsel.
    apply in_app_iff in He. destruct He as [He|[->|[]]]; [|lia].
    assert (K : e_end e < e_start a).
    { clear W. induction sel as [|b sel IH]; [contradiction|]. cbn in H. inversion H as [|? ? A B]; subst. rewrite Forall_forall in B.
      destruct He as [->|He]; [apply B; apply in_app_iff; right; left; reflexivity|apply IH; assumption]. }
    specialize (W a). rewrite in_app_iff in W. specialize (W (or_intror (or_introl eq_refl))). lia.
Qed.
Lemma sel_ends sel : sel <> [] -> exists a b, In a sel /\ In b sel /\ sel_start sel = e_start a /\ sel_end sel = e_end b.
Proof.
  intros N. destruct sel as [|a sel]; [contradiction|]. exists a. unfold sel_end.
  destruct (rev (a :: sel)) as [|b r] eqn:E; [apply (f_equal (@length _)) in E; rewrite rev_length in E; discriminate|].
  exists b. repeat split; [left; reflexivity|]. apply in_rev. rewrite E. left. reflexivity.
Qed.
