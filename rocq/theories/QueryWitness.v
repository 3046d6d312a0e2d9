(** A small index and queries over it, for the examples beside the query theorems. *)
From Verif Require Import Base Bytes HopperModel ArrayDefs GclSpec HopperProofs VectorModel UnaryModel AnswerProofs QueryModel QuerySpec QueryProofs OptProofs ParseProofs PhraseProofs.

(** a at 1, 4, 7; b at 2, 5; doc over [1,3] and [4,9]; nothing else. *)
Definition ix_list (t : bytes) : list iv :=
  if eqb_bytes t (lit "a") then [Iv 1 1 0; Iv 4 4 0; Iv 7 7 0]
  else if eqb_bytes t (lit "b") then [Iv 2 2 0; Iv 5 5 0]
  else if eqb_bytes t (lit "c") then [Iv 3 3 0; Iv 8 8 0]
  else if eqb_bytes t (lit "doc:") then [Iv 1 3 0; Iv 4 9 0] else [].
Definition ix_set (t : bytes) : iv -> Prop := set_of (ix_list t).
Definition ix (t : bytes) : hobj := existT _ (stored_cls true (ix_list t)) (stored_start true (ix_list t)).
Definition ix_split (w : bytes) : list bytes :=
  if eqb_bytes w (lit "a b") then [lit "a"; lit "b"] else
  if eqb_bytes w (lit "a") then [lit "a"] else [].
Definition ix_count (t : bytes) : Z := Z.of_nat (length (ix_list t)).

Lemma ix_cases (P : list iv -> Prop) :
  P [Iv 1 1 0; Iv 4 4 0; Iv 7 7 0] -> P [Iv 2 2 0; Iv 5 5 0] -> P [Iv 3 3 0; Iv 8 8 0] -> P [Iv 1 3 0; Iv 4 9 0] -> P [] ->
  forall t, P (ix_list t).
Proof. intros H1 H2 H3 H4 H5 t. unfold ix_list. repeat (destruct (eqb_bytes t _); [assumption|]). assumption. Qed.
Lemma ix_ok : index_for ix ix_set.
Proof.
  intros t. apply stored_answers; [|revert t; apply (ix_cases (fun l => Z.of_nat (length l) <= 2305843009213693951)); cbn; lia|discriminate].
  revert t. apply (ix_cases gclist); cbn; unfold finite, minf, maxf; cbn; lia.
Qed.
Lemma ix_tokens : tokens_indexed ix_set ix_split.
Proof.
  intros p. unfold ix_split.
  assert (Ha : forall x, ix_set (lit "a") x -> iq x = ip x).
  { intros x [<-|[<-|[<-|[]]]]; reflexivity. }
  assert (Hb : forall x, ix_set (lit "b") x -> iq x = ip x).
  { intros x [<-|[<-|[]]]; reflexivity. }
  destruct (eqb_bytes p (lit "a b")); [|destruct (eqb_bytes p (lit "a"))].
  - split; [cbn; lia|]. intros t [<-|[<-|[]]]; (split; [discriminate|]); repeat split; auto.
  - split; [cbn; lia|]. intros t [<-|[]]; (split; [discriminate|]); repeat split; auto.
  - split; [cbn; lia|]. intros t [].
Qed.

Definition q1 : bytes := lit "(<< (^ a b c) doc:)".
Definition q2 : bytes := 34 :: lit "a b" ++ [34].
Definition q3 : bytes := lit "(<< (+ (# 2) (... a b)) (link doc:))".
Definition q1_tree : sexpr := SX CONTAINED_IN [] 0 [SX ALL_OF [] 0 [raw (lit "a"); raw (lit "b"); raw (lit "c")]; raw (lit "doc:")].

Definition run_query (en : bool) (q : bytes) : res (option (list iv)) :=
  let* o := gcl_hopper ix ix_count en ix_split q in
  match o with None => Ok None
             | Some o => let* l := enum_all true (h_tau (projT1 o)) ip (projT2 o) in Ok (Some l) end.
Lemma q_ex :
  from_string q1 = Ok (Some q1_tree) /\
  valid (phrased ix_set ix_split) q1_tree /\
  run_query false q1 = Ok (Some [Iv 1 3 0; Iv 5 8 0]) /\ run_query true q1 = Ok (Some [Iv 1 3 0; Iv 5 8 0]) /\
  run_query false q2 = Ok (Some [Iv 1 2 0; Iv 4 5 0]).
Proof.
  split; [vm_compute; reflexivity|]. split.
  - apply valid_cont; [auto|cbn; lia|]. constructor; [|constructor; constructor].
    apply valid_comb; [auto|discriminate|]. repeat constructor.
  - split; [vm_compute; reflexivity|]. split; vm_compute; reflexivity.
Qed.
(** The rewritten form of the first query. *)
Lemma q1_opt : optimize_ ix_count q1_tree =
  SX MATERIALIZE [] 0 [SX CONTAINED_IN [] 0 [SX ALL_OF [] 0
    [SX MATERIALIZE [] 0 [SX CONTAINED_IN [] 0 [SX ALL_OF [] 0 [raw (lit "b"); raw (lit "c")]; raw (lit "doc:")]];
     raw (lit "a")]; raw (lit "doc:")]].
Proof. vm_compute. reflexivity. Qed.
Lemma sub_fits (S : iv -> Prop) l : (forall x, S x -> In x l) -> Z.of_nat (length l) <= 2305843009213693951 -> fits_in_memory S.
Proof. intros H Hl. exists l. auto. Qed.
Lemma q1_fits : mats_fit ix_set (optimize_ ix_count q1_tree).
Proof.
  assert (H : forall A, fits_in_memory (sem_cin (sem_and A (set_of [Iv 3 3 0; Iv 8 8 0])) (ix_set (lit "doc:"))) /\
     fits_in_memory (sem_cin (sem_and A (set_of [Iv 1 1 0; Iv 4 4 0; Iv 7 7 0])) (ix_set (lit "doc:")))).
  { intros A.
    assert (Hall : forall B, fits_in_memory (sem_cin (sem_and A B) (ix_set (lit "doc:")))).
    { intros B. apply (sub_fits _ (flat_map (fun p => map (fun q => Iv (Z.of_nat p) (Z.of_nat q) 0) (List.seq 0 10)) (List.seq 0 10))).
      - intros x [(F & V & _) (d & Hd & N)]. destruct x as [p q v]. cbn in V. subst v.
        assert (B' : 1 <= p /\ p <= q /\ q <= 9).
        { unfold nests, finite in *. cbn in *. destruct Hd as [<-|[<-|[]]]; cbn in *; lia. }
        apply in_flat_map. exists (Z.to_nat p). split; [apply in_seq; lia|].
        apply in_map_iff. exists (Z.to_nat q). split; [f_equal; lia|apply in_seq; lia].
      - vm_compute. discriminate. }
    split; apply Hall. }
  rewrite q1_opt. cbn [mats_fit].
  split.
  - intros _. constructor; [|constructor]. cbn [meaning map fold_left sem_op raw]. apply H.
  - split; [|exact Logic.I]. split; [discriminate|]. split; [|split; [split; [discriminate|exact Logic.I]|exact Logic.I]].
    split; [discriminate|]. split; [|split; [split; [discriminate|exact Logic.I]|exact Logic.I]].
    split; [intros _; constructor; [|constructor]; cbn [meaning map fold_left sem_op raw]; apply H|].
    cbn. intuition discriminate.
Qed.
Lemma q3_ex : match from_string q3 with
              | Ok (Some e) => from_string (to_string e) = Ok (Some e) /\ to_string e = lit "(<< (+ (# 2) (... a b)) (@ doc:))"
              | _ => False end.
Proof. vm_compute. auto. Qed.
Definition q4 : bytes := [40; 94; 32; 34; 92; 34; 32; 41; 34; 32; 39; 97; 39; 41].
(** An all-of of two quoted terms, with an escaped quote and a parenthesis inside quotes. *)
Lemma q4_ex : match from_string q4 with
              | Ok (Some (SX ALL_OF _ _ [SX TERM t _ _; SX TERM u _ _])) => t = [34; 92; 34; 32; 41; 34] /\ u = [39; 97; 39]
              | _ => False end.
Proof. vm_compute. auto. Qed.
(** parse.cc:142-144: an overlong width overflows. *)
Lemma q_overflow : exists s, from_string s = UB.
Proof. exists (lit "(# 99999999999999999999)"). vm_compute. reflexivity. Qed.
Lemma phrase_ex : tokens_indexed ix_set ix_split /\ (2 <= length (ix_split (lit "a b")))%nat /\
  run_query true q2 = Ok (Some [Iv 1 2 0; Iv 4 5 0]).
Proof. split; [exact ix_tokens|]. split; [apply Nat.leb_le; reflexivity|]. vm_compute. reflexivity. Qed.
