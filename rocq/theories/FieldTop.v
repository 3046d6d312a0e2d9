(** Statistics of fields: made, read back and ranked by. *)
From Verif Require Import Base HopperModel GclSpec HopperProofs ArrayProofs UnaryProofs AnswerProofs PostingModel
  VectorModel VectorProofs RankModel RankSpec RankDocs RankSsr RankTop StatsModel StatsSpec StatsProofs StatsTop
  FieldModel FieldSpec FieldHopper FieldMade FieldLoop.

Lemma answers_objs os fs : Forall2 (fun o f => answers (projT1 o) (projT2 o) (set_of f)) os fs ->
  Forall2 obj_ok os (map set_of fs).
Proof. induction 1; cbn [map]; constructor; [apply obj_answers; assumption|assumption]. Qed.

Theorem field_made C split stem featurize c SC items os fs :
  answers C c SC -> listed SC items -> (forall d, In d items -> 0 <= ip d) ->
  Forall2 (fun o f => answers (projT1 o) (projT2 o) (set_of f)) os fs -> Forall gclist fs ->
  fold_right Z.add 0 (map (fields_length fs) items) <= maxf ->
  exists r, tf_field_annotations C (classes os) split stem featurize c (states os) = Ok r /\
  match items with
  | [] => r = None
  | _ => exists notes, r = Some notes /\ field_statistics split stem featurize fs items notes
  end.
Proof.
  intros HC HL H0 HF GF HT. apply answers_iff in HC. destruct HC as (IC & HC & Ic).
  destruct (objs_vec _ _ (answers_objs _ _ HF)) as (J & V & Ij).
  pose proof (made_ok C (classes os) split stem featurize fs J V GF SC IC HC items HL H0 HT c (states os) Ic Ij) as W.
  apply wp_exists in W. destruct W as (r & E & ->). eexists. split; [exact E|]. destruct items as [|d l]; [reflexivity|].
  eexists. split; [reflexivity|]. intros t PL NC. exact (all_held split stem featurize fs (d :: l) t PL NC _ _ _ eq_refl).
Qed.

(* ------------------------------------------------------------------ *)
Lemma ahead_ext C s S T : (forall x, S x <-> T x) -> answers_ahead C s S -> answers_ahead C s T.
Proof.
  intros E [G H]. split; [exact (GC_ext S T E G)|]. intros h Hh. destruct (H h Hh) as (rs & Er & F). exists rs. split; [exact Er|].
  clear - E F. induction F as [|[m k] r h rs A F IH]; constructor; [|exact IH]. unfold answer in *.
  destruct m; eauto using tau_spec_ext, rho_spec_ext, uat_spec_ext, ohr_spec_ext.
  - destruct A as (l & -> & y & A & ->). exists (ip y). split; [reflexivity|]. exists y. split; [|reflexivity]. eauto using uat_spec_ext.
  - destruct A as (l & -> & y & A & ->). exists (iq y). split; [reflexivity|]. exists y. split; [|reflexivity]. eauto using tau_spec_ext.
Qed.

(** A hopper that answers ahead is all that a ranking needs. *)
Definition term_ahead (l : list iv) (t : term) : Prop := exists S, answers_ahead (t_cls t) (t_hop t) S /\ listed S l.
Lemma term_ahead_over l t : term_ahead l t -> over l t.
Proof.
  intros (S & [G H] & HL). exists S, (fun s => forall h, Forall (fun mk => minf <= snd mk <= maxf /\ ahead (fst mk) = true) h ->
    exists rs, run (t_cls t) s h = Ok rs /\ Forall2 (answer S) h rs). split; [|split; [exact H|exact HL]].
  intros s k Hs Hk.
  assert (forall h, Forall (fun mk => minf <= snd mk <= maxf /\ ahead (fst mk) = true) h -> exists s' r rs, h_tau (t_cls t) s k = Ok (s', r) /\
    tau_spec S k r /\ run (t_cls t) s' h = Ok rs /\ Forall2 (answer S) h rs) as X.
  { intros h Hh. destruct (Hs ((Mtau, k) :: h)) as (rs & E & F); [constructor; [auto|exact Hh]|].
    change (run (t_cls t) s ((Mtau, k) :: h)) with (bind (h_tau (t_cls t) s k) (fun '(s', r) => bind (run (t_cls t) s' h) (fun rs => Ok (r :: rs)))) in E.
    destruct (h_tau (t_cls t) s k) as [[s' r]| |]; cbn [bind] in E; try discriminate.
    destruct (run (t_cls t) s' h) as [rs'| |] eqn:E'; cbn [bind] in E; try discriminate. injection E as <-.
    inversion F as [|? ? ? ? A F']; subst. exists s', r, rs'. auto. }
  destruct (X []) as (s' & r & rs & E & T & _); [constructor|]. rewrite E. split; [|exact T].
  intros h Hh. destruct (X h Hh) as (s2 & r2 & rs2 & E2 & _ & E3 & F). rewrite E in E2. injection E2 as <- <-. eauto.
Qed.

(* ------------------------------------------------------------------ *)
Section Read.
Context (split : Z -> Z -> list word) (stem : word -> word) (featurize : word -> Z) (fadd fmul : Z -> Z -> Z) (index : Z -> hobj).
Notation in_field := (in_field split stem).
Notation in_fields := (in_fields split stem).
Notation weighted := (weighted split stem 0 fadd fmul).
Notation weight_of := (weight_of split stem 0 fadd fmul).
Lemma in_field_pos t f d : 0 <= in_field t f d. Proof. unfold FieldSpec.in_field. lia. Qed.
Lemma in_fields_pos t fs d : 0 <= in_fields t fs d.
Proof. unfold FieldSpec.in_fields. induction fs as [|f fs IH]; cbn [map fold_right]; [lia|]. pose proof (in_field_pos t f d). lia. Qed.
Lemma in_fields_some t fs d : 0 < in_fields t fs d <-> exists f, In f fs /\ 0 < in_field t f d.
Proof.
  unfold FieldSpec.in_fields. induction fs as [|f fs IH]; cbn [map fold_right]; [split; [lia|intros (f & [] & _)]|].
  pose proof (in_field_pos t f d). pose proof (in_fields_pos t fs d) as P. unfold FieldSpec.in_fields in P. split.
  - intros L. destruct (Z_lt_le_dec 0 (in_field t f d)) as [H'|H']; [exists f; split; [left; reflexivity|exact H']|].
    destruct (proj1 IH) as (g & Hg & L'); [lia|]. exists g. split; [right; exact Hg|exact L'].
  - intros (g & [->|Hg] & L); [lia|]. assert (0 < fold_right Z.add 0 (map (fun f => in_field t f d) fs)) by (apply IH; eauto). lia.
Qed.

Lemma spots_in n items x : In x (spots n items) <-> exists d, In d items /\ 0 < n d /\ x = Iv (ip d) (ip d) (n d).
Proof.
  unfold spots. rewrite in_map_iff. split.
  - intros (d & <- & Hd). apply filter_In in Hd. destruct Hd as [Hd L]. exists d. split; [exact Hd|]. split; [lia|reflexivity].
  - intros (d & Hd & L & ->). exists d. split; [reflexivity|]. apply filter_In. split; [exact Hd|lia].
Qed.
Lemma gclist_spots n items : gclist items -> gclist (spots n items).
Proof.
  induction items as [|x l IH]; intros G; [exact Logic.I|]. pose proof (IH (gclist_tail _ _ G)) as IH'. unfold spots. cbn [filter].
  destruct (0 <? n x); [|exact IH']. cbn [map]. apply gclist_cons; [exact IH'| |].
  - pose proof (gclist_finite _ x G (or_introl eq_refl)) as F. unfold finite in *. cbn [ip iq]. lia.
  - intros z Hz. apply spots_in in Hz. destruct Hz as (d & Hd & _ & ->). pose proof (gclist_lt _ _ _ G Hd). cbn [ip iq]. lia.
Qed.
Lemma spots_find n items d : gclist items -> In d items ->
  find (fun x => ip x =? ip d) (spots n items) = if 0 <? n d then Some (Iv (ip d) (ip d) (n d)) else None.
Proof.
  intros G Hd. destruct (find _ _) as [x|] eqn:E.
  - apply find_some in E. destruct E as [Hx E]. apply spots_in in Hx. destruct Hx as (d' & Hd' & L & ->). cbn [ip] in E.
    assert (d' = d) as -> by (apply (gclist_ip_inj items); auto; lia). replace (0 <? n d) with true by lia. reflexivity.
  - destruct (0 <? n d) eqn:L; [|reflexivity]. exfalso.
    pose proof (find_none _ _ E (Iv (ip d) (ip d) (n d))) as X. cbn [ip] in X. rewrite Z.eqb_refl in X.
    discriminate X. apply spots_in. exists d. split; [exact Hd|]. split; [lia|reflexivity].
Qed.

Lemma weight_value t items d wfs : gclist items -> In d items ->
  value_at 0 fadd fmul (ip d) (combine (map fst wfs) (map (fun wf => spots (in_field t (snd wf)) items) wfs)) = weight_of t wfs d.
Proof.
  intros G Hd. unfold value_at, FieldSpec.weight_of. generalize 0 at 1 3. induction wfs as [|[w f] wfs IH]; intros z; [reflexivity|].
  cbn [map combine fold_left fst snd]. rewrite (spots_find (in_field t f) items d G Hd). rewrite <- IH. destruct (0 <? in_field t f d); reflexivity.
Qed.

Lemma weighted_listed t wfs items : gclist items -> gclist (weighted t wfs items).
Proof. intros G. apply (gclist_map_filter _ (fun d => Iv (ip d) (iq d) (weight_of t wfs d))); [auto|exact G]. Qed.

Lemma term_read C c SC items fs notes chosen wfs t : answers C c SC -> listed SC items ->
  (forall w, In w (map snd chosen) -> fadd 0 (fmul w 0) = 0) -> chosen <> [] -> chosen_fields fs chosen wfs -> indexed index notes ->
  (forall i f, nth_error fs i = Some f -> noted (featurize (tag_field i ++ t)) notes = spots (in_field t f) items) ->
  let o := field_tf_hopper featurize index fadd fmul chosen C c t in
  answers_ahead (projT1 o) (projT2 o) (set_of (weighted t wfs items)).
Proof.
  intros HC [G HQ] Z0 NE HF HI HN o. apply answers_iff in HC. destruct HC as (IC & HC & Ic).
  set (Ls := map (fun wf : Z * list iv => spots (in_field t (snd wf)) items) wfs).
  assert (Forall2 (fun o f => answers (projT1 o) (projT2 o) (set_of f)) (field_hoppers featurize index chosen t) Ls) as HO.
  { subst Ls o. unfold field_hoppers. clear NE Z0. induction HF as [|[i w] [w' f] r r' [E1 E2] HF IH]; cbn [map]; constructor; [|exact IH].
    cbn [fst snd] in *. rewrite <- (HN i f E2). apply HI. rewrite (HN i f E2). apply gclist_spots, G. }
  destruct (objs_vec _ _ (answers_objs _ _ HO)) as (J & V & Ij).
  assert (map snd chosen = map fst wfs) as EW.
  { clear - HF. induction HF as [|a b r r' [E _] HF IH]; [reflexivity|]. cbn [map]. rewrite E, IH. reflexivity. }
  assert (length wfs = length chosen) as EL by (clear - HF; induction HF; cbn [length]; congruence).
  eapply (ahead_ext _ _ (gathered (map snd chosen) fadd fmul Ls SC)).
  2:{ subst o. unfold field_tf_hopper. cbn [projT1 projT2].
      eapply (ft_ahead (classes (field_hoppers featurize index chosen t)) C (map snd chosen) fadd fmul Ls J V).
      - intros E. apply NE. apply map_eq_nil in E. destruct chosen; [reflexivity|]. subst wfs. discriminate EL.
      - exact HC.
      - unfold Ls. rewrite !map_length. symmetry. exact EL.
      - exact Z0.
      - apply Forall_forall. intros l Hl. apply in_map_iff in Hl. destruct Hl as (wf & <- & _). apply gclist_spots, G.
      - intros l x Hl Hx. apply in_map_iff in Hl. destruct Hl as (wf & <- & _). apply spots_in in Hx. destruct Hx as (d & Hd & _ & ->).
        exists d. split; [apply HQ, Hd|reflexivity].
      - apply fresh_inv. split; [exact Ij|exact Ic]. }
  intros z. unfold gathered, set_of, FieldSpec.weighted. rewrite in_map_iff. rewrite EW. split.
  - intros (y & Hy & (l & x & Hl & Hx & Exy) & ->). apply HQ in Hy. exists y. split; [rewrite <- (weight_value t items y wfs G Hy); reflexivity|].
    apply filter_In. split; [exact Hy|]. apply Z.ltb_lt, in_fields_some. apply in_map_iff in Hl. destruct Hl as (wf & <- & Hwf).
    apply spots_in in Hx. destruct Hx as (d & Hd & L & ->). cbn [ip] in Exy.
    assert (d = y) as -> by (apply (gclist_ip_inj items); auto). exists (snd wf). split; [apply in_map, Hwf|exact L].
  - intros (d & <- & Hd). apply filter_In in Hd. destruct Hd as [Hd L]. apply Z.ltb_lt, in_fields_some in L. destruct L as (f & Hf & L).
    apply in_map_iff in Hf. destruct Hf as (wf & <- & Hwf). exists d. split; [apply HQ, Hd|]. split.
    + exists (spots (in_field t (snd wf)) items), (Iv (ip d) (ip d) (in_field t (snd wf) d)). split; [|split; [|reflexivity]].
      * apply in_map_iff. exists wf. auto.
      * apply spots_in. exists d. auto.
    + rewrite <- (weight_value t items d wfs G Hd). reflexivity.
Qed.

Lemma load_ok T t n : answers T t (set_of (match n with O => [] | S m => [Iv 0 0 (Z.of_nat (S m))] end)) -> load_df T t = Ok (Z.of_nat n).
Proof.
  intros H. apply answers_iff in H. destruct H as (I & H & It). unfold load_df.
  pose proof (hop_tau H t 0 It ltac:(unfold minf, maxf; lia)) as W. destruct (h_tau T t 0) as [[s r]| |]; try contradiction.
  destruct W as [_ [[E _]|[_ [(Hr & _ & _)|[-> M]]]]]; [discriminate E| |]; cbn [bind]; destruct n as [|n].
  - destruct Hr.
  - destruct Hr as [<-|[]]. reflexivity.
  - reflexivity.
  - specialize (M _ (or_introl eq_refl)). cbn [ip] in M. lia.
Qed.

(** Statistics read back. *)
Theorem field_read C c SC items fs notes chosen wfs t : answers C c SC -> listed SC items ->
  Forall gclist fs -> Z.of_nat (length items) <= maxf -> fold_right Z.add 0 (map (fields_length fs) items) <= maxf ->
  field_statistics split stem featurize fs items notes -> indexed index notes ->
  (forall w, In w (map snd chosen) -> fadd 0 (fmul w 0) = 0) -> chosen <> [] -> chosen_fields fs chosen wfs ->
  Forall plain (t :: all_words split stem fs items) -> no_clash featurize (field_keys (length fs) (t :: all_words split stem fs items)) ->
  sum_values _ (projT2 (index (featurize total_items_word))) = Ok (Z.of_nat (length items)) /\
  sum_values _ (projT2 (index (featurize total_length_word))) = Ok (fold_right Z.add 0 (map (fields_length fs) items)) /\
  load_df _ (projT2 (index (featurize (tag_df ++ t)))) = Ok (Z.of_nat (length (filter (fun d => 0 <? in_fields t fs d) items))) /\
  let o := field_tf_hopper featurize index fadd fmul chosen C c t in
  answers_ahead (projT1 o) (projT2 o) (set_of (weighted t wfs items)).
Proof.
  intros HC HL GF BI BT HN HI Z0 NE HF PL NC. destruct (HN t PL NC) as (E1 & _ & E3 & _ & E5 & E6).
  assert (0 <= fold_right Z.add 0 (map (fields_length fs) items)) as P0 
    by (clear - GF; induction items as [|x l IH]; cbn [map fold_right]; [lia|]; pose proof (fields_length_pos fs x GF); lia).
  assert (forall v, gclist [Iv 0 0 v]) as G0.
  { intros v. cbn. unfold finite. cbn [ip iq]. unfold minf, maxf. repeat split; lia. }
  split; [|split; [|split]].
  - eapply sum_ok; [apply HI; rewrite E5; apply G0|exact E5|unfold minf, maxf in *; lia].
  - eapply sum_ok; [apply HI; rewrite E6; apply G0|exact E6|unfold minf, maxf in *; lia].
  - apply load_ok. rewrite <- E3. apply HI. rewrite E3. destruct (length (filter _ items)); [exact Logic.I|apply G0].
  - eapply term_read; eassumption.
Qed.

(** Rankings. *)
Definition field_term (chosen : list (nat * Z)) (C : hcls) (c : St C) (t : word) : term :=
  let o := field_tf_hopper featurize index fadd fmul chosen C c t in Term (projT1 o) (projT2 o) maxr.

Context (C : hcls) (c : St C) (SC : iv -> Prop) (items : list iv) (fs : list (list iv)) (notes : list annotation)
  (chosen : list (nat * Z)) (wfs : list (Z * list iv)) (ts : list word).
Context (HC : answers C c SC) (HL : listed SC items) (HN : field_statistics split stem featurize fs items notes) (HI : indexed index notes).
Context (Z0 : forall w, In w (map snd chosen) -> fadd 0 (fmul w 0) = 0) (NE : chosen <> []) (HF : chosen_fields fs chosen wfs).
Context (HT : forall t, In t ts -> Forall plain (t :: all_words split stem fs items) /\
  no_clash featurize (field_keys (length fs) (t :: all_words split stem fs items))).

Lemma field_over t : In t ts -> over (weighted t wfs items) (field_term chosen C c t).
Proof.
  intros Ht. destruct (HT t Ht) as [PL NC]. apply term_ahead_over. exists (set_of (weighted t wfs items)). split.
  - eapply term_read; try eassumption. apply (HN t PL NC).
  - split; [apply weighted_listed, HL|reflexivity].
Qed.
Lemma fields_docs : Forall (of_docs items) (map (fun t => weighted t wfs items) ts).
Proof.
  apply Forall_forall. intros l Hl. apply in_map_iff in Hl. destruct Hl as (t & <- & Ht). intros x Hx.
  unfold FieldSpec.weighted in Hx. apply in_map_iff in Hx. destruct Hx as (d & <- & Hd). apply filter_In in Hd.
  exists d. cbn [ip iq]. tauto.
Qed.
Theorem field_ranking {F : Type} (zero : F) add lt sort gain depth : weak_order lt -> sorts sort ->
  exists top, term_ranking zero add lt sort gain depth (map (field_term chosen C c) ts) = Ok top /\
    best lt depth (doc_results zero add lt gain items (map (fun t => weighted t wfs items) ts)) top.
Proof.
  intros W HS. apply terms_best_over; [exact W|exact HS|exact (proj1 HL)|exact fields_docs|].
  assert (forall l, (forall t, In t l -> In t ts) -> Forall2 over (map (fun t => weighted t wfs items) l) (map (field_term chosen C c) l)) as X.
  { induction l as [|t r IH]; intros Hl; cbn [map]; constructor; [apply field_over, Hl; left; reflexivity|apply IH; intros x Hx; apply Hl; right; exact Hx]. }
  apply X. auto.
Qed.
Theorem field_bm25 {F : Type} (zero : F) add lt sort depth (weights : list (F * (Z -> Z -> F))) :
  weak_order lt -> sorts sort -> exact zero add lt -> (forall d, In d items -> iq d - ip d <= maxf) ->
  let ws := map (fun '(t, (idf, g)) => Wand idf g (field_term chosen C c t)) (combine ts weights) in
  Forall2 (fun t w => bounded zero lt (weighted t wfs items) (Wand (fst w) (snd w) (field_term chosen C c t))) ts weights ->
  exists top, bm25_ranking zero add lt sort depth ws = Ok top /\
    best lt depth (doc_results zero add lt (wand_gain zero ws) items (map (fun t => weighted t wfs items) ts)) top.
Proof.
  intros W HS HX HB ws HW. apply wand_best_over; [exact W|exact HS|exact HX|exact (proj1 HL)|exact HB|exact fields_docs|].
  assert (forall l r, Forall2 (fun t w => bounded zero lt (weighted t wfs items) (Wand (fst w) (snd w) (field_term chosen C c t))) l r ->
    (forall t, In t l -> In t ts) -> Forall2 (fun l w => over l (w_term w) /\ bounded zero lt l w) (map (fun t => weighted t wfs items) l)
      (map (fun '(t, (idf, g)) => Wand idf g (field_term chosen C c t)) (combine l r))) as X.
  { induction 1 as [|t [idf g] l r Hb H IH]; intros Hl; cbn [map combine]; constructor.
    - cbn [w_term]. split; [apply field_over, Hl; left; reflexivity|exact Hb].
    - apply IH. intros x Hx. apply Hl. right. exact Hx. }
  apply X; auto.
Qed.
End Read.
