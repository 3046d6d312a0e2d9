(** Proofs about builders and the reading of their files. *)
From Coq Require Import Lia.
From Verif Require Import Base Bytes BuilderModel BuilderSpec.

Section B.
Variable (answer : list call -> call -> bool).
Lemma add_call b x : adds x -> failed b = false -> finalized b = false ->
  do_call answer b x = (answer (reached b) x, Builder (negb (answer (reached b) x)) false (reached b ++ [x])).
Proof. intros A F N. destruct x; try (destruct (A eq_refl)); cbn [do_call]; rewrite F, N; reflexivity. Qed.
Lemma granted_calls xs : forall h, Forall adds xs -> granted answer h xs -> do_calls answer (Builder false false h) xs = (repeat true (length xs), Builder false false (h ++ xs)).
Proof.
  induction xs as [|x xs IH]; intros h A G; cbn [do_calls length repeat]; [rewrite app_nil_r; reflexivity|].
  inversion A; subst. destruct G as [G1 G2]. rewrite add_call by auto. cbn [reached]. rewrite G1. cbn [negb]. rewrite IH by assumption. rewrite <- app_assoc. reflexivity.
Qed.
Lemma calls_app xs : forall b ys, do_calls answer b (xs ++ ys) =
  let (a1, b1) := do_calls answer b xs in let (a2, b2) := do_calls answer b1 ys in (a1 ++ a2, b2).
Proof.
  induction xs as [|x xs IH]; intros b ys; cbn [app do_calls]; [destruct (do_calls answer b ys); reflexivity|].
  destruct (do_call answer b x) as [ok b']. rewrite IH. destruct (do_calls answer b' xs) as [a1 b1]. destruct (do_calls answer b1 ys). reflexivity.
Qed.
Lemma failed_calls xs : forall b, failed b = true -> do_calls answer b xs = (repeat false (length xs), b).
Proof. induction xs as [|x xs IH]; intros b F; [reflexivity|]. cbn [do_calls length repeat]. replace (do_call answer b x) with (false, b) by (destruct x; cbn [do_call]; rewrite F; reflexivity). rewrite IH by exact F. reflexivity. Qed.
Lemma final_calls xs : forall b, failed b = false -> finalized b = true -> do_calls answer b xs = (map finalizes xs, b).
Proof. induction xs as [|x xs IH]; intros b F N; [reflexivity|]. cbn [do_calls map]. replace (do_call answer b x) with (finalizes x, b) by (destruct x; cbn [do_call finalizes]; rewrite F, N; reflexivity). rewrite IH by assumption. reflexivity. Qed.

Lemma open_ok before : Forall adds before -> granted answer [] before ->
  do_calls answer fresh before = (repeat true (length before), Builder false false before).
Proof. intros A G. exact (granted_calls before [] A G). Qed.
Lemma refused_ok before x after : Forall adds before -> granted answer [] before -> answer before x = false ->
  exists b, do_calls answer fresh (before ++ x :: after) = (repeat true (length before) ++ repeat false (S (length after)), b) /\ reached b = before ++ [x].
Proof.
  intros A G H. rewrite calls_app, open_ok by assumption. cbn [do_calls].
  assert (E : exists f, do_call answer (Builder false false before) x = (false, Builder true f (before ++ [x]))).
  { destruct x; cbn [do_call failed finalized reached]; rewrite H; eexists; reflexivity. }
  destruct E as [f E]. rewrite E, failed_calls by reflexivity. eexists. split; reflexivity.
Qed.
Lemma finalized_ok before after : Forall adds before -> granted answer [] before -> answer before Finalize = true ->
  exists b, do_calls answer fresh (before ++ Finalize :: after) = (repeat true (S (length before)) ++ map finalizes after, b) /\ reached b = before ++ [Finalize].
Proof.
  intros A G H. rewrite calls_app, open_ok by assumption. cbn [do_calls do_call failed finalized reached]. rewrite H. cbn [negb]. rewrite final_calls by reflexivity.
  exists (Builder false true (before ++ [Finalize])). split; [|reflexivity]. f_equal. change (S (length before)) with (1 + length before)%nat. rewrite Nat.add_comm, repeat_app, <- app_assoc. reflexivity.
Qed.
Lemma calls_cases xs : (Forall adds xs /\ granted answer [] xs) \/
  (exists before x after, xs = before ++ x :: after /\ Forall adds before /\ granted answer [] before /\ answer before x = false) \/
  (exists before after, xs = before ++ Finalize :: after /\ Forall adds before /\ granted answer [] before /\ answer before Finalize = true).
Proof.
  assert (GA : forall a h x, granted answer h a -> answer (h ++ a) x = true -> granted answer h (a ++ [x])).
  { induction a as [|y a IH]; intros h x G H; cbn [app granted]; [rewrite app_nil_r in H; auto|]. destruct G as [G1 G2]. split; [exact G1|]. apply IH; [exact G2|]. rewrite <- app_assoc. exact H. }
  assert (K : forall after before, Forall adds before -> granted answer [] before ->
    (Forall adds (before ++ after) /\ granted answer [] (before ++ after)) \/
    (exists b x a, before ++ after = b ++ x :: a /\ Forall adds b /\ granted answer [] b /\ answer b x = false) \/
    (exists b a, before ++ after = b ++ Finalize :: a /\ Forall adds b /\ granted answer [] b /\ answer b Finalize = true)).
  { induction after as [|x after IH]; intros before A G; [left; rewrite app_nil_r; auto|].
    destruct (answer before x) eqn:E; [|right; left; exists before, x, after; auto].
    assert (D : x = Finalize \/ adds x) by (destruct x; [right|right|right|left; reflexivity]; discriminate).
    destruct D as [->|D]; [right; right; exists before, after; auto|].
    replace (before ++ x :: after) with ((before ++ [x]) ++ after) by (rewrite <- app_assoc; reflexivity). apply IH; [apply Forall_app; auto|apply GA; assumption]. }
  exact (K xs [] ltac:(constructor) Logic.I).
Qed.
End B.

(** ** The shell *)
Lemma no_quote s : ~ In 39 s -> quote_loop s = s ++ [39].
Proof. induction s as [|c s IH]; intros H; [reflexivity|]. cbn [quote_loop app]. destruct (c =? 39) eqn:E; [exfalso; apply H; left; lia|]. rewrite IH; [reflexivity|]. intros I. apply H. right. exact I. Qed.
Lemma quote_split s : ~ In 39 s \/ exists a b, s = a ++ 39 :: b /\ ~ In 39 a.
Proof.
  induction s as [|c s [IH|(a & b & -> & IH)]]; [left; intros []| |].
  - destruct (Z.eq_dec c 39) as [->|N]; [right; exists [], s; split; [reflexivity|intros []]|left; intros [H|H]; [congruence|exact (IH H)]].
  - right. destruct (Z.eq_dec c 39) as [->|N]; [exists [], (a ++ 39 :: b); split; [reflexivity|intros []]|].
    exists (c :: a), b. split; [reflexivity|]. intros [H|H]; [congruence|exact (IH H)].
Qed.
Lemma quote_loop_app a b : ~ In 39 a -> quote_loop (a ++ b) = a ++ quote_loop b.
Proof. induction a as [|c a IH]; intros H; [reflexivity|]. cbn [app quote_loop]. destruct (c =? 39) eqn:E; [exfalso; apply H; left; lia|]. rewrite IH; [reflexivity|]. intros I. apply H. right. exact I. Qed.
Lemma shell_quote_ok s : forall w rest l, shell_words (Some (match w with None => [] | Some w => w end ++ s)) rest l -> shell_words w (shell_quote s ++ rest) l.
Proof.
  assert (K : forall n s, (length s <= n)%nat -> forall w rest l, shell_words (Some (match w with None => [] | Some w => w end ++ s)) rest l -> shell_words w (shell_quote s ++ rest) l); [|apply (K (length s) s (le_n _))].
  clear s. induction n as [|n IH]; intros s L w rest l H.
  - destruct s; [|cbn in L; lia]. cbn [shell_quote quote_loop app]. change (39 :: 39 :: rest) with (39 :: [] ++ 39 :: rest). apply sw_quoted; [intros []|exact H].
  - destruct (quote_split s) as [N|(a & b & -> & N)].
    + unfold shell_quote. rewrite no_quote by exact N. cbn [app]. rewrite <- app_assoc. cbn [app]. apply sw_quoted; assumption.
    + unfold shell_quote. rewrite quote_loop_app by exact N. cbn [quote_loop Z.eqb Pos.eqb]. change (39 =? 39) with true. cbv iota.
      cbn [app]. rewrite <- !app_assoc. cbn [app]. apply sw_quoted; [exact N|]. apply sw_escape; [discriminate|].
      change (shell_words (Some ((match w with None => [] | Some w => w end ++ a) ++ [39])) (shell_quote b ++ rest) l).
      apply IH; [rewrite app_length in L; cbn [length] in L; lia|]. rewrite <- !app_assoc. exact H.
Qed.
Lemma plain_words p : forall w rest l, forallb plain_char p = true -> shell_words (Some (w ++ p)) rest l -> shell_words (Some w) (p ++ rest) l.
Proof.
  induction p as [|c p IH]; intros w rest l P H; [rewrite app_nil_r in H; exact H|]. cbn [forallb] in P. apply andb_prop in P. destruct P as [P1 P2].
  cbn [app]. apply sw_plain; [exact P1|]. apply IH; [exact P2|]. rewrite <- app_assoc. exact H.
Qed.
Lemma command_ok path filename : path <> [] -> forallb plain_char path = true -> shell_words None (zcat_command path filename) [path; filename].
Proof.
  intros N P. unfold zcat_command. destruct path as [|c p]; [contradiction|]. cbn [forallb] in P. apply andb_prop in P. destruct P as [P1 P2].
  cbn [app]. apply sw_plain; [exact P1|]. cbn [app]. apply plain_words; [exact P2|]. change (lit " " ++ shell_quote filename) with (32 :: shell_quote filename). apply sw_word.
  rewrite <- (app_nil_r (shell_quote filename)). apply (shell_quote_ok filename None). apply sw_last.
Qed.
(** A command has one reading at most. *)
Lemma split_unique q : forall q' s s', ~ In 39 q -> ~ In 39 q' -> q ++ 39 :: s = q' ++ 39 :: s' -> q = q' /\ s = s'.
Proof.
  induction q as [|c q IH]; intros [|c' q'] s s' N N' E; cbn [app] in E.
  - injection E as ->. auto.
  - injection E as <- _. exfalso. apply N'. left. reflexivity.
  - injection E as -> _. exfalso. apply N. left. reflexivity.
  - injection E as -> E. destruct (IH q' s s') as [-> ->]; [intros I; apply N; right; exact I|intros I; apply N'; right; exact I|exact E|auto].
Qed.
Lemma words_unique w s l : shell_words w s l -> forall l', shell_words w s l' -> l = l'.
Proof.
  intros H. induction H as [|w|s l H IH|w s l H IH|w c s l P H IH|w c s l N H IH|w q s l N H IH]; intros l' H'.
  - inversion H'. reflexivity.
  - inversion H'. reflexivity.
  - inversion H' as [| |? ? K| |? ? ? ? P K| |]; subst; [apply IH; exact K|discriminate P].
  - inversion H' as [| | |? ? ? K|? ? ? ? P K| |]; subst; [f_equal; apply IH; exact K|discriminate P].
  - inversion H' as [| | | |? ? ? ? P' K|? ? ? ? N K|? ? ? ? N K]; subst; try discriminate P. apply IH. exact K.
  - inversion H' as [| | | |? ? ? ? P K|? ? ? ? N' K|]; subst; [discriminate P|apply IH; exact K].
  - remember (39 :: q ++ 39 :: s) as t eqn:T. destruct H' as [| | | |? ? ? ? P K|? ? ? ? N' K|w q' s' l' N' K]; try discriminate T.
    + injection T as -> ->. discriminate P.
    + injection T as T. destruct (split_unique _ _ _ _ N' N T) as [-> ->]. apply IH. exact K.
Qed.
Lemma c_str_id s : ~ In 0 s -> c_str s = s.
Proof. induction s as [|c s IH]; intros H; [reflexivity|]. cbn [c_str]. destruct (c =? 0) eqn:E; [exfalso; apply H; left; lia|]. rewrite IH; [reflexivity|]. intros I. apply H. right. exact I. Qed.
Lemma extension_ok f e : has_extension f e = true <-> exists stem, stem <> [] /\ f = stem ++ e.
Proof.
  unfold has_extension. rewrite Bool.andb_true_iff, Nat.ltb_lt, eqb_bytes_eq. split.
  - intros [L E]. exists (firstn (length f - length e) f). split; [|rewrite <- E at 2; symmetry; apply firstn_skipn].
    intros H. apply (f_equal (@length Z)) in H. rewrite firstn_length in H. cbn [length] in H. lia.
  - intros (stem & N & ->). rewrite app_length. split; [destruct stem; [contradiction|cbn; lia]|].
    replace (length stem + length e - length e)%nat with (length stem) by lia. rewrite skipn_app, skipn_all, Nat.sub_diag. reflexivity.
Qed.
Lemma zcat_extension_ok f : has_zcat_extension f = true <-> exists stem e, stem <> [] /\ In e zipped_extensions /\ f = stem ++ e.
Proof.
  unfold has_zcat_extension. rewrite !Bool.orb_true_iff, !extension_ok. unfold zipped_extensions. split.
  - intros [[[[[[H|H]|H]|H]|H]|H]|H]; destruct H as (stem & N & ->); eexists; eexists; (split; [exact N|]; split; [|reflexivity]); cbn [In]; tauto.
  - intros (stem & e & N & I & ->). cbn [In] in I. destruct I as [<-|[<-|[<-|[<-|[<-|[<-|[<-|[]]]]]]]]; eauto 12.
Qed.

(** ** Reading *)
Lemma istream_ok pieces : forall n buffer t, gives pieces t -> 
  exists taken buffer' pieces' eof t', istream_read buffer pieces n = (taken, buffer', pieces', eof) /\ gives pieces' t' /\ taken ++ buffer' ++ t' = buffer ++ t /\
  (eof = true -> buffer' = [] /\ t' = []) /\ (eof = false -> length taken = n) /\ (amount pieces' + length buffer' <= amount pieces + length buffer - length taken)%nat /\ (length taken <= amount pieces + length buffer)%nat.
Proof.
  induction pieces as [|p pieces IH]; intros n buffer t G; cbn [istream_read]; destruct (Nat.leb n (length buffer)) eqn:E.
  1,3: apply Nat.leb_le in E; do 5 eexists; split; [reflexivity|]; split; [exact G|]; split; [rewrite app_assoc, firstn_skipn; reflexivity|]; split; [discriminate|]; split; [intros _; rewrite firstn_length; lia|]; rewrite firstn_length, skipn_length; lia.
  - inversion G; subst. do 5 eexists. split; [reflexivity|]. split; [constructor|]. rewrite !app_nil_r. split; [reflexivity|]. split; [auto|]. split; [discriminate|]. cbn; lia.
  - apply Nat.leb_gt in E. destruct p as [[|c b]|]; inversion G as [|r|b' r t0 Nb G']; subst.
    + do 5 eexists. split; [reflexivity|]. split; [constructor|]. rewrite !app_nil_r. split; [reflexivity|]. split; [auto|]. split; [discriminate|]. cbn [length amount flat_map]. lia.
    + contradiction.
    + destruct (IH (n - length buffer)%nat (c :: b) t0 G') as (taken & buffer' & pieces' & eof & t' & R & G2 & EQ & EE & EF & AM & AM2). rewrite R.
      do 5 eexists. split; [reflexivity|]. split; [exact G2|]. split; [rewrite <- app_assoc, EQ; reflexivity|]. split; [exact EE|]. split; [intros H; specialize (EF H); rewrite app_length; lia|].
      unfold amount in *. cbn [flat_map]. rewrite !app_length. cbn [length] in *. lia.
Qed.
Lemma inhale_loop_ok size n : forall buffer pieces t contents, (0 < size)%nat -> gives pieces t -> (amount pieces + length buffer < n)%nat ->
  inhale_loop n size buffer pieces contents = Ok (contents ++ buffer ++ t).
Proof.
  induction n as [|n IH]; intros buffer pieces t contents S G N; [lia|]. cbn [inhale_loop].
  destruct (istream_ok pieces size buffer t G) as (taken & buffer' & pieces' & eof & t' & R & G2 & EQ & EE & EF & AM & AM2). rewrite R. destruct eof.
  - destruct (EE eq_refl) as [-> ->]. cbn [app] in EQ. rewrite app_nil_r in EQ. rewrite EQ. reflexivity.
  - specialize (EF eq_refl). rewrite (IH buffer' pieces' t') by (auto; lia). rewrite <- app_assoc, EQ. reflexivity.
Qed.
Lemma inhale_ok fopen popen size filename pieces t : (0 < size)%nat -> maybe_zipped fopen popen filename = Some pieces -> gives pieces t ->
  inhale fopen popen size filename = Ok (Some t).
Proof. intros S M G. unfold inhale. rewrite M, (inhale_loop_ok size _ [] pieces t [] S G) by (cbn; lia). reflexivity. Qed.
Lemma zipped_ok fopen popen filename : has_zcat_extension filename = true -> ~ In 0 filename ->
  match fopen filename, zcat fopen with
  | Some _, Some path => exists command, (forall words, shell_words None command words <-> words = [path; filename]) /\ maybe_zipped fopen popen filename = popen command
  | _, _ => maybe_zipped fopen popen filename = None
  end.
Proof.
  intros H Z0. unfold maybe_zipped. rewrite H, c_str_id by exact Z0. destruct (fopen filename); [|reflexivity]. destruct (zcat fopen) as [path|] eqn:ZC; [|reflexivity].
  assert (PN : path <> [] /\ forallb plain_char path = true).
  { unfold zcat in ZC. destruct (fopen (lit "/usr/bin/zcat")); [injection ZC as <-; split; [discriminate|reflexivity]|]. destruct (fopen (lit "/bin/zcat")); [injection ZC as <-; split; [discriminate|reflexivity]|discriminate]. }
  destruct PN as [N P]. exists (zcat_command path filename). split.
  { intros words. split; [intros W; exact (words_unique _ _ _ W _ (command_ok path filename N P))|intros ->; apply command_ok; assumption]. }
  f_equal. apply c_str_id.
  unfold zcat_command. rewrite !in_app_iff. intros [I|[I|I]].
  - rewrite forallb_forall in P. specialize (P 0 I). discriminate P.
  - cbn in I. lia.
  - unfold shell_quote in I. destruct I as [I|I]; [discriminate|]. revert I Z0. clear. induction filename as [|c s IH]; cbn [quote_loop]; [intros [H|[]]; discriminate|].
    destruct (c =? 39); cbn [In app]; intros I Z0; [destruct I as [I|[I|[I|[I|I]]]]; try discriminate; apply IH; tauto|destruct I as [->|I]; tauto].
Qed.
Lemma plain_file fopen popen filename : ~ In 0 filename -> has_zcat_extension filename = false -> maybe_zipped fopen popen filename = fopen filename.
Proof. intros Z0 H. unfold maybe_zipped. rewrite H, c_str_id by exact Z0. destruct (fopen filename); reflexivity. Qed.

Lemma build_ok answer fopen popen filenames : forall texts b, Forall2 (fun f t => exists pieces, maybe_zipped fopen popen f = Some pieces /\ gives pieces t) filenames texts ->
  failed b = false -> finalized b = false ->
  exists ok b', build_trec answer fopen popen filenames b = Ok (ok, b') /\
  (ok = true <-> granted answer (reached b) (map Text texts ++ [Finalize])) /\
  (ok = true -> reached b' = reached b ++ map Text texts ++ [Finalize]).
Proof.
  unfold build_trec. induction filenames as [|f filenames IH]; intros texts b F FF NN; inversion F as [|? t ? ts (pieces & M & G) F']; subst; cbn [build_loop].
  - cbn [do_call map app granted]. rewrite FF, NN. do 2 eexists. split; [reflexivity|]. split; [tauto|]. reflexivity.
  - rewrite (inhale_ok fopen popen (Z.to_nat 262144) f pieces t) by (auto; lia). cbn [bind]. rewrite add_call by (auto; discriminate). cbn [map app granted].
    destruct (answer (reached b) (Text t)) eqn:E; cbn [negb].
    + destruct (IH ts (Builder false false (reached b ++ [Text t])) F' eq_refl eq_refl) as (ok & b' & R & OK & RE). rewrite R. do 2 eexists. split; [reflexivity|]. cbn [reached] in *. split; [rewrite OK; tauto|].
      intros Hok. rewrite (RE Hok), <- app_assoc. reflexivity.
    + do 2 eexists. split; [reflexivity|]. split; [split; [discriminate|intros [H _]; discriminate]|discriminate].
Qed.
(** A file that cannot be read. *)
Lemma unreadable_refuted answer fopen popen f fs b : maybe_zipped fopen popen f = None -> build_trec answer fopen popen (f :: fs) b = UB.
Proof. intros H. unfold build_trec. cbn [build_loop]. unfold inhale. rewrite H. reflexivity. Qed.
Lemma error_refuted popen size : (4 < size)%nat -> inhale (fun _ => Some [Bytes (lit "half"); Error; Bytes (lit " more")]) popen size (lit "f") = Ok (Some (lit "half")).
Proof. intros K. do 5 (destruct size as [|size]; [lia|]). reflexivity. Qed.
