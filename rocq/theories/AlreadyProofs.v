(** A file counts as appended exactly if its path is among those found. *)
From Verif Require Import Base Bytes HopperModel GclSpec HopperProofs ArrayProofs UnaryProofs AnswerProofs VectorModel
  RankSpec RankSsr StatsProofs ForageProofs TsvModel TsvSpec TsvMore AlreadyModel.
Local Arguments chr s%string_scope.

(** Two names of one file in the current directory. *)
Definition same_file (a b : bytes) : Prop :=
  a = b \/ (~ In (chr "/") a /\ b = lit "./" ++ a) \/ (~ In (chr "/") b /\ a = lit "./" ++ b).

Section Already.
Context (C : hcls) (SC : iv -> Prop) (IC : St C -> Prop) (HC : hop_ok C SC IC).
Context (translate : Z -> Z -> bytes) (path : bytes) (items : list iv) (HL : listed SC items).
Let hit (x : iv) : bool := path_match (translate (ip x) (iq x)) path.
Definition already_inv (s : St C * iv) : Prop :=
  let '(h, x) := s in exists l rest, items = l ++ rest /\ existsb hit l = false /\ IC h /\ x = hd maxr rest.
Lemma already_step s : already_inv s -> wp (already_body translate path C s) (fun r => match r with
  | inl s' => already_inv s' /\ maxf - ip (snd s') < maxf - ip (snd s)
  | inr b => b = existsb hit items end).
Proof.
  destruct s as [h x]. intros (l & rest & E & N & Ih & ->). unfold already_body. inf.
  destruct rest as [|x rest]; cbn [hd].
  - cbn [ip maxr]. rewrite Z.ltb_irrefl. apply wp_ok. rewrite E, app_nil_r. symmetry. exact N.
  - pose proof HL as [G HQ]. rewrite E in G.
    assert (Ix : In x (l ++ x :: rest)) by (rewrite in_app_iff; right; left; reflexivity).
    pose proof (gclist_finite _ x G Ix) as Fx. unfold finite in Fx.
    replace (ip x <? maxf) with true by lia.
    destruct (path_match _ path) eqn:PM.
    { apply wp_ok. rewrite E, existsb_app. cbn [existsb]. unfold hit at 2. rewrite PM. rewrite orb_true_r. reflexivity. }
    apply wp_bind, wp_chk; [unfold minf, maxf in *; lia|].
    step (hop_tau HC) as [h' y]; [exact Ih|unfold minf, maxf in *; lia|intros [Ih' Hy]].
    assert (X : match rest with [] => y = maxr | z :: _ => y = z end).
    { apply (tau_next SC (l ++ [x]) rest (ip x + 1) y (hop_GC HC)); try (unfold minf, maxf in *; lia).
      - intros z. rewrite <- !app_assoc. cbn [app]. rewrite <- E. symmetry. apply HQ.
      - rewrite <- !app_assoc. cbn [app]. exact G.
      - intros z Hz. rewrite !in_app_iff in Hz. destruct Hz as [Hz|[<-|[]]]; [|lia].
        pose proof (gclist_app_lt l (x :: rest) z x G Hz ltac:(left; reflexivity)). lia.
      - intros z Hz. apply gclist_app in G. destruct G as [_ G]. pose proof (gclist_lt _ _ _ G Hz). lia.
      - exact Hy. }
    apply wp_ok. split.
    + exists (l ++ [x]), rest. split; [rewrite <- app_assoc; exact E|]. split; [|split; [exact Ih'|destruct rest; exact X]].
      rewrite existsb_app, N. cbn [existsb]. unfold hit. rewrite PM. reflexivity.
    + cbn [fst snd]. destruct rest as [|z rest]; subst y; [cbn [ip maxr]; unfold minf, maxf in *; lia|].
      apply gclist_app in G. destruct G as [_ G]. pose proof (gclist_lt _ _ z G (or_introl eq_refl)). lia.
Qed.
End Already.
Theorem already_found translate C c SC items name : answers C c SC -> listed SC items ->
  already_appended translate C c name = Ok (existsb (fun x => path_match (translate (ip x) (iq x)) (normalized_path name)) items).
Proof.
  intros HC HL. apply answers_iff in HC. destruct HC as (IC & HC & Ic). pose proof HL as [G HQ].
  set (b := existsb _ items).
  assert (W : wp (already_appended translate C c name) (fun l => l = b)).
  2:{ destruct (already_appended translate C c name); cbn in W; try contradiction. congruence. }
  unfold already_appended. inf. step (hop_tau HC) as [h y]; [exact Ic|unfold minf, maxf in *; lia|intros [Ih Hy]].
  assert (X : match items with [] => y = maxr | z :: _ => y = z end).
  { apply (tau_next SC [] items (minf + 1) y (hop_GC HC)); try (unfold minf, maxf in *; lia).
    - intros z. symmetry. apply HQ.
    - exact G.
    - intros z [].
    - intros z Hz. pose proof (gclist_finite _ z G Hz) as F. unfold finite in F. lia.
    - exact Hy. }
  eapply wp_mono; [apply (loop_rule (already_inv C IC translate (normalized_path name) items) (fun s => maxf - ip (snd s)) (fun l => l = b))|].
  - intros [h0 x] (l & rest & E & _ & _ & ->). cbn [fst snd]. destruct rest as [|z rest]; cbn [hd]; [cbn [ip maxr]; lia|].
    assert (finite z) by (apply (gclist_finite _ z G); rewrite E, in_app_iff; right; left; reflexivity). fin.
  - intros s Hs. apply (already_step C SC IC HC translate (normalized_path name) items HL s Hs).
  - exists [], items. repeat split; auto. destruct items; exact X.
  - cbn [fst snd]. change (Z.pos BIG) with 295147905179352825856. destruct items as [|z rest]; subst y; [cbn [ip maxr]; unfold maxf; lia|].
    pose proof (gclist_finite _ z G (or_introl eq_refl)). fin2.
  - intros l ->. reflexivity.
Qed.
Lemma normalized_nonempty n : normalized_path n <> [].
Proof. unfold normalized_path. destruct (existsb _ n) eqn:E; [|discriminate]. destruct n; [discriminate E|discriminate]. Qed.
Lemma normalized_same a b : normalized_path a = normalized_path b <-> same_file a b.
Proof.
  assert (SL : forall n, existsb (fun c => c =? chr "/") n = true <-> In (chr "/") n).
  { intros n. rewrite existsb_exists. split; [intros (c & I & E); apply Z.eqb_eq in E; subst; exact I|intros I; exists (chr "/"); split; [exact I|apply Z.eqb_refl]]. }
  assert (SN : forall n, existsb (fun c => c =? chr "/") n = false <-> ~ In (chr "/") n).
  { intros n. rewrite <- SL. destruct (existsb _ n); intuition discriminate. }
  assert (D : forall n, In (chr "/") (lit "./" ++ n)) by (intros n; right; left; reflexivity).
  unfold normalized_path, same_file. split.
  - destruct (existsb _ a) eqn:A; destruct (existsb _ b) eqn:B; intros E.
    + left. exact E.
    + right. right. split; [apply SN, B|exact E].
    + right. left. split; [apply SN, A|symmetry; exact E].
    + left. apply app_inv_head in E. exact E.
  - intros [->|[[N ->]|[N ->]]]; [reflexivity| |].
    + apply SN in N. rewrite N. rewrite (proj2 (SL _) (D a)). reflexivity.
    + apply SN in N. rewrite N. rewrite (proj2 (SL _) (D b)). reflexivity.
Qed.
Lemma normalized_black n : Forall (fun c => ~ space c) n -> Forall (fun c => ~ space c) (normalized_path n).
Proof. intros F. unfold normalized_path. destruct (existsb _ n); [exact F|]. apply Forall_app. split; [|exact F]. repeat constructor; unfold space; cbn; lia. Qed.
Theorem already_ok translate C c SC items name : answers C c SC -> listed SC items ->
  (forall x, In x items -> exists n rest, translate (ip x) (iq x) = normalized_path n ++ rest /\ Forall (fun c => ~ space c) n /\
    (rest = [] \/ exists c r, rest = c :: r /\ space c)) ->
  Forall (fun c => ~ space c) name ->
  exists b, already_appended translate C c name = Ok b /\
  (b = true <-> exists x n rest, In x items /\ translate (ip x) (iq x) = normalized_path n ++ rest /\ Forall (fun c => ~ space c) n /\
    (rest = [] \/ exists c r, rest = c :: r /\ space c) /\ same_file name n).
Proof.
  intros HC HL T B. eexists. split; [apply (already_found translate C c SC items name HC HL)|].
  rewrite existsb_exists. split.
  - intros (x & Ix & M). destruct (T x Ix) as (n & rest & E & Bn & R). rewrite E in M.
    apply (path_match_ok (normalized_path n) (normalized_path name) (normalized_nonempty n) (normalized_black n Bn) (normalized_black name B) rest R) in M.
    exists x, n, rest. repeat split; auto. apply normalized_same. exact M.
  - intros (x & n & rest & Ix & E & Bn & R & S). exists x. split; [exact Ix|]. rewrite E.
    apply (path_match_ok (normalized_path n) (normalized_path name) (normalized_nonempty n) (normalized_black n Bn) (normalized_black name B) rest R).
    apply normalized_same, S.
Qed.
