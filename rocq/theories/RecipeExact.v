(** Exactly which texts survive. *)
From Verif Require Import Base Bytes RecipeModel RecipeSpec RecipeProofs.

(** What a value found by parsing leaves room for. *)
Definition room (v : bytes) (n : nat) : Prop := (length v + 5 <= n)%nat \/ (at0 v = 91 /\ (length v + 3 <= n)%nat).
Lemma room_mono v n n' : room v n -> (n <= n')%nat -> room v n'.
Proof. unfold room. intros [H|[H1 H2]] L; [left; lia|right; split; [exact H1|lia]]. Qed.
Lemma parse_room n : forall s m m', parse_items n s m = Some m' -> forall k v, In (k, v) m' -> In (k, v) m \/ room v (length s).
Proof.
  induction n as [|n IH]; intros s m m' H; cbn [parse_items] in H; [discriminate|]. pose proof (skip_length s) as Ls. set (s0 := skip s) in *. clearbody s0.
  destruct (at0 s0 =? 93); [apply finish_some in H; subst; auto|]. destruct (identifier (at0 s0)) eqn:I0; cbn [negb] in H; [|discriminate]. pose proof (key_of_spec s0) as [K1 K2].
  assert (Nk : fst (key_of s0) <> []). { destruct s0 as [|c s0]; [cbn in I0; discriminate|]. cbn in I0 |- *. rewrite I0. destruct (key_of s0). discriminate. }
  destruct (key_of s0) as [key s1]. cbn [fst snd] in *. assert (L1 : (1 + length s1 <= length s0)%nat) by (rewrite K1, app_length; destruct key; [contradiction|cbn; lia]).
  pose proof (skip_length s1) as L2. set (s2 := skip s1) in *. clearbody s2. destruct (at0 s2 =? 58) eqn:E2; cbn [negb] in H; [|discriminate]. apply Z.eqb_eq, at0_length in E2; [|lia]. pose proof (skip_length (tl s2)) as L3. set (s3 := skip (tl s2)) in *. clearbody s3.
  destruct (negb (at0 s3 =? 39) && negb (at0 s3 =? 34) && negb (at0 s3 =? 91)) eqn:Q; [discriminate|]. assert (L3' : length s3 = Datatypes.S (length (tl s3))) by (destruct s3; [discriminate|reflexivity]).
  set (q := if at0 s3 =? 91 then 93 else at0 s3) in *. assert (Hq : q <> 0) by (unfold q; destruct (Z.eqb_spec (at0 s3) 91); [lia|]; destruct (Z.eqb_spec (at0 s3) 39); [lia|]; destruct (Z.eqb_spec (at0 s3) 34); [lia|discriminate]).
  pose proof (munch_length (tl s3) q) as L4. destruct (munch (tl s3) q) as [s4 value]. cbn [fst snd] in L4. destruct (at0 s4 =? q) eqn:E4; cbn [negb] in H; [|discriminate]. apply Z.eqb_eq, (at0_length s4 q Hq) in E4.
  pose proof (skip_length (tl s4)) as L5. set (s5 := skip (tl s4)) in *. clearbody s5.
  assert (P : (1 <= length s5)%nat -> forall k' v', In (k', v') (put key (if q =? 93 then 91 :: value ++ [93] else value) m) -> In (k', v') m \/ room v' (length s)).
  { intros L k' v' J. destruct (put_in _ _ _ _ _ J) as [J'| ->]; [auto|right]. destruct (q =? 93); [right; split; [reflexivity|cbn; rewrite app_length; cbn; lia]|left; lia]. }
  destruct (at0 s5 =? 93) eqn:E5; [apply Z.eqb_eq, at0_length in E5; [|lia]; apply finish_some in H; subst; apply P; lia|]. destruct (at0 s5 =? 44) eqn:E5'; cbn [negb] in H; [|discriminate]. apply Z.eqb_eq, at0_length in E5'; [|lia].
  pose proof (skip_length (tl s5)) as L6. set (s6 := skip (tl s5)) in *. clearbody s6. destruct (at0 s6 =? 93); [apply finish_some in H; subst; apply P; lia|]. intros k' v' J. destruct (IH s6 _ m' H k' v' J) as [J'|J']; [apply P in J'; [exact J'|lia]|right; apply (room_mono _ _ _ J'); lia].
Qed.
Lemma munch_string_suffix n : forall s q w, (length s <= n)%nat -> exists z, s = z ++ fst (munch_string s q w).
Proof.
  induction n as [|n IH]; intros [|c s] q w L; cbn [munch_string length fst] in *; try lia; try (exists []; reflexivity). destruct (c =? q); [exists []; reflexivity|]. destruct (c =? 0); [exists []; reflexivity|]. destruct (c =? 92).
  - destruct s as [|e s]; [exists [c]; reflexivity|]. cbn in L. destruct (negb (e =? 92) && negb (e =? q)); [exists [c]; reflexivity|]. destruct (IH s q (w ++ [e]) ltac:(lia)) as (z & Ez). exists (c :: e :: z). cbn. rewrite <- Ez. reflexivity.
  - destruct (IH s q (w ++ [c]) ltac:(lia)) as (z & Ez). exists (c :: z). cbn. rewrite <- Ez. reflexivity.
Qed.
Lemma munch_clean_prefix p r : forall w, clean p -> munch_string (p ++ r) 34 w = munch_string r 34 (w ++ p).
Proof.
  induction p as [|c p IH]; intros w H; cbn [app]; [rewrite app_nil_r; reflexivity|]. destruct (H c (or_introl eq_refl)) as (N1 & N2 & N3). cbn [munch_string]. replace (c =? 34) with false by lia. replace (c =? 0) with false by lia. replace (c =? 92) with false by lia. rewrite IH, <- app_assoc; [reflexivity|]. intros x I. apply H. right. exact I.
Qed.
Lemma not_clean v : clean v \/ exists p c r, v = p ++ c :: r /\ clean p /\ (c = 34 \/ c = 92 \/ c = 0).
Proof.
  induction v as [|c v IH]; [left; intros c []|]. destruct (Z.eq_dec c 34) as [->|N1]; [right; exists [], 34, v; repeat split; auto; intros x []|]. destruct (Z.eq_dec c 92) as [->|N2]; [right; exists [], 92, v; repeat split; auto; intros x []|]. destruct (Z.eq_dec c 0) as [->|N3]; [right; exists [], 0, v; repeat split; auto; intros x []|].
  destruct IH as [IH|(p & d & r & -> & Hp & Hd)]; [left; intros x [<-|I]; auto|]. right. exists (c :: p), d, r. split; [reflexivity|]. split; [|exact Hd]. intros x [<-|I]; auto.
Qed.
Definition rest : bytes := [34; 44; 10; 93; 10].
(** Parsing goes on after the value. *)
Definition after (n : nat) (s : bytes) (m : params) : option params :=
  let s := skip (tl s) in
  if at0 s =? 93 then finish (tl s) m else if negb (at0 s =? 44) then None else
  let s := skip (tl s) in if at0 s =? 93 then finish (tl s) m else parse_items n s m.
Lemma after_room n s m m' : after n s m = Some m' -> (2 <= length s)%nat -> forall k v, In (k, v) m' -> In (k, v) m \/ room v (length s - 2).
Proof.
  unfold after. intros H L k v J. assert (T : length (tl s) = (length s - 1)%nat) by (destruct s; cbn; lia). pose proof (skip_length (tl s)) as L5. set (s5 := skip (tl s)) in *. clearbody s5. destruct (at0 s5 =? 93); [apply finish_some in H; subst; auto|]. destruct (at0 s5 =? 44) eqn:E; cbn [negb] in H; [|discriminate]. apply Z.eqb_eq, at0_length in E; [|lia].
  pose proof (skip_length (tl s5)) as L6. set (s6 := skip (tl s5)) in *. clearbody s6. destruct (at0 s6 =? 93); [apply finish_some in H; subst; auto|]. destruct (parse_room n s6 m m' H k v J) as [K|K]; [auto|right; apply (room_mono _ _ _ K); lia].
Qed.
Lemma cook_one k v : name k -> cook v = None -> exists n, cook (freeze [(k, v)]) = (let '(s, value) := munch_string (v ++ rest) 34 [] in if negb (at0 s =? 34) then None else after n s [(k, value)]).
Proof.
  intros [Nk Hk] N. unfold freeze, dump_map. cbn [map concat fst snd dump]. rewrite N. exists (length k + length v + 13)%nat. unfold bytes in k, v. unfold cook.
  assert (E : ([91; 10] ++ ((indent 1 ++ k ++ [58] ++ ([34] ++ v ++ [34]) ++ [44; 10]) ++ []) ++ indent 0 ++ [93]) ++ [10] = 91 :: 10 :: 32 :: 32 :: k ++ 58 :: 34 :: v ++ rest) by (cbn [indent repeat concat app]; repeat (rewrite <- app_assoc; cbn [app]); reflexivity).
  rewrite E. clear E. assert (Ln : length (91 :: 10 :: 32 :: 32 :: k ++ 58 :: 34 :: v ++ rest) = (length k + length v + 11)%nat) by (cbn [length]; rewrite app_length; cbn [length]; rewrite app_length; cbn [length rest]; lia).
  cbn [skip]. change (is_space 91) with false. cbn [at0 tl]; zz. rewrite (parse_enough _ (Datatypes.S (length k + length v + 13))); [|cbn [length]; apply le_n|cbn [length] in Ln |- *; lia]. cbn [parse_items].
  assert (S3 : spaces [10; 32; 32]) by (intros c [<-|[<-|[<-|[]]]]; reflexivity). change (10 :: 32 :: 32 :: k ++ 58 :: 34 :: v ++ rest) with ([10; 32; 32] ++ k ++ 58 :: 34 :: v ++ rest). rewrite skip_spaces by exact S3. destruct k as [|k0 k]; [contradiction|]. pose proof (Hk k0 (or_introl eq_refl)) as I0.
  assert (Ks : skip ((k0 :: k) ++ 58 :: 34 :: v ++ rest) = (k0 :: k) ++ 58 :: 34 :: v ++ rest) by (cbn [app skip]; rewrite (identifier_space k0 I0); reflexivity). rewrite Ks. clear Ks Ln. rewrite key_of_app by (auto || reflexivity). cbn [app at0]. replace (k0 =? 93) with false by (destruct (identifier_plain k0 I0); lia). rewrite I0. cbn [negb].
  cbn [skip]. change (is_space 58) with false. cbn [at0 tl]; zz. cbn [skip]. change (is_space 34) with false. cbn [at0 tl]; zz. unfold munch; zz. destruct (munch_string (v ++ rest) 34 []) as [s value]. destruct (negb (at0 s =? 34)); reflexivity.
Qed.
Theorem exact k v : name k -> cook v = None -> (cook (freeze [(k, v)]) = Some [(k, v)] <-> clean v).
Proof.
  intros Hn N. split.
  - intros E. destruct (not_clean v) as [C|(p & c & r & -> & Cp & Hc)]; [exact C|exfalso]. destruct (cook_one k (p ++ c :: r) Hn N) as (n & E1). rewrite E in E1. clear E. rewrite <- app_assoc, munch_clean_prefix in E1 by exact Cp. cbn [app] in E1.
    assert (Lv : length (p ++ c :: r) = (length p + 1 + length r)%nat) by (rewrite app_length; cbn; lia). destruct Hc as [->|[->| ->]]; cbn [munch_string] in E1.
    + change (34 =? 34) with true in E1. cbn [at0] in E1. change (34 =? 34) with true in E1. cbn [negb] in E1. symmetry in E1. destruct (after_room _ _ _ _ E1 ltac:(cbn; rewrite app_length; cbn; lia) k (p ++ 34 :: r) (or_introl eq_refl)) as [[J|[]]|K].
      * injection J as J. apply (f_equal (@length Z)) in J. rewrite Lv in J. lia.
      * unfold room in K. rewrite Lv in K. cbn [length app] in K. rewrite app_length in K. cbn [length rest] in K. destruct K as [K|[K1 K2]]; [lia|]. destruct p as [|c p]; [discriminate K1|]. cbn [length] in K2. lia.
    + change (92 =? 34) with false in E1. change (92 =? 0) with false in E1. change (92 =? 92) with true in E1. cbv iota in E1. destruct r as [|e r].
      * cbn [app rest] in E1. change (negb (34 =? 92) && negb (34 =? 34)) with false in E1. cbv iota in E1. vm_compute in E1. discriminate.
      * cbn [app] in E1. destruct (negb (e =? 92) && negb (e =? 34)) eqn:Ee; [destruct (Z.eqb_spec e 34) as [->|Ne]; [rewrite andb_false_r in Ee; discriminate|]; cbn [at0] in E1; replace (e =? 34) with false in E1 by lia; discriminate E1|].
        pose proof (munch_string_suffix (length (r ++ rest)) (r ++ rest) 34 (p ++ [e]) ltac:(lia)) as (z & Ez). pose proof (munch_string_length (length (r ++ rest)) (r ++ rest) 34 (p ++ [e]) ltac:(lia)) as Lm. destruct (munch_string (r ++ rest) 34 (p ++ [e])) as [s value]. cbn [fst snd] in Ez, Lm.
        destruct (at0 s =? 34) eqn:E34; cbn [negb] in E1; [|discriminate]. apply Z.eqb_eq in E34. rewrite !app_length in Lm. cbn [length rest] in Lm.
        assert (L5 : (5 <= length s)%nat).
        { apply app_eq_app in Ez. destruct Ez as (l & [[_ Es]|[_ Es]]); [rewrite Es, app_length; cbn; lia|]. unfold rest in Es. destruct l as [|a [|b [|d [|f [|g [|h l]]]]]]; cbn [app] in Es; try discriminate Es; [subst s; cbn; lia|..]; inversion Es; subst s; cbn in E34; discriminate. }
        symmetry in E1. destruct (after_room _ _ _ _ E1 ltac:(lia) k (p ++ 92 :: e :: r) (or_introl eq_refl)) as [[J|[]]|K].
        -- injection J as ->. rewrite Lv in Lm. cbn [length] in Lm. lia.
        -- unfold room in K. rewrite Lv in K. cbn [length] in K. lia.
    + change (0 =? 34) with false in E1. change (0 =? 0) with true in E1. cbv iota in E1. cbn [at0] in E1. change (negb (0 =? 34)) with true in E1. discriminate E1.
  - intros C. destruct (cook_one k v Hn N) as (n & ->). unfold rest. rewrite munch_string_clean by exact C. reflexivity.
Qed.
