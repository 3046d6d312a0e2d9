(** Proofs about the files of a working directory. *)
From Coq Require Import Lia.
From Verif Require Import Base Bytes CodecModel CodecSpec CodecProofs WorkModel WorkSpec.

Lemma part_nil text pos n : len text <= pos -> part text pos n = [].
Proof. intros H. unfold part, len in *. rewrite skipn_all2 by lia. apply firstn_nil. Qed.
Lemma part_len text pos n : len (part text pos n) <= len text.
Proof. unfold part, len. rewrite firstn_length, skipn_length. lia. Qed.
Lemma skipn_add {A} a b (l : list A) : skipn b (skipn a l) = skipn (a + b) l.
Proof. revert l. induction a as [|a IH]; intros l; [reflexivity|]. destruct l as [|x l]; [rewrite !skipn_nil; reflexivity|]. cbn [skipn plus]. apply IH. Qed.
Lemma firstn_two {A} m k (s t : list A) : (m <= length s)%nat -> firstn m s ++ firstn k (skipn m s ++ t) = firstn (m + k) (s ++ t).
Proof.
  intros H. replace (m + k)%nat with (length (firstn m s) + k)%nat by (rewrite firstn_length; lia).
  rewrite <- (firstn_skipn m s) at 4. rewrite <- app_assoc. rewrite firstn_app_2. reflexivity.
Qed.
Lemma size_t_id n : 0 <= n < 2 ^ 64 -> size_t n = n.
Proof. intros H. apply Z.mod_small. exact H. Qed.

Lemma file_read_ok file w n : 0 <= w -> 0 <= n -> w + n < 2 ^ 64 -> file_read file w n = Ok (part file w n, w + len (part file w n)).
Proof.
  intros W N B. unfold file_read. pose proof (len_nonneg file) as L.
  destruct (n =? 0) eqn:E; cbn [orb].
  - apply Z.eqb_eq in E. subst n. unfold part. cbn [Z.to_nat firstn]. change (len []) with 0. rewrite Z.add_0_r. reflexivity.
  - destruct (len file <=? w) eqn:F; [rewrite part_nil by lia; change (len []) with 0; rewrite Z.add_0_r; reflexivity|].
    rewrite size_t_id by lia. destruct (len file <? w + n) eqn:G.
    + replace (len file <? w + (len file - w)) with false by lia. unfold part.
      rewrite (firstn_all2 (n := Z.to_nat n)), (firstn_all2 (n := Z.to_nat (len file - w))) by (rewrite skipn_length; unfold len in *; lia).
      do 2 f_equal. unfold len in *. rewrite skipn_length. lia.
    + rewrite G. unfold part. do 2 f_equal. unfold len in *. rewrite firstn_length, skipn_length. lia.
Qed.
Lemma full_read_same b w n : full_read b w n = file_read b w n.
Proof. reflexivity. Qed.

Lemma firstn_len_app {A} (a b : list A) : firstn (Z.to_nat (len a)) (a ++ b) = a.
Proof. unfold len. rewrite Nat2Z.id, firstn_app, Nat.sub_diag, firstn_all, firstn_O, app_nil_r. reflexivity. Qed.
Lemma skipn_len_app {A} (a b : list A) : skipn (Z.to_nat (len a)) (a ++ b) = b.
Proof. unfold len. rewrite Nat2Z.id, skipn_app, Nat.sub_diag, skipn_all. reflexivity. Qed.

Section Z.
Variable (c : compressor).
Hypothesis good : good_zlib c.
(** Blocks as they lie in a file. *)
Inductive packed : list bytes -> bytes -> Prop :=
| packed_nil : packed [] []
| packed_cons b z bs f : b <> [] -> len b <= compressed_available -> len z <= compressed_available + extra c compressed_available ->
    (forall room, len b <= room -> tang c z room = Ok b) -> packed bs f -> packed (b :: bs) (addr_bytes (len z) ++ z ++ f).
Lemma packed_app bs1 f1 bs2 f2 : packed bs1 f1 -> packed bs2 f2 -> packed (bs1 ++ bs2) (f1 ++ f2).
Proof. intros P Q. induction P; [exact Q|]. cbn [app]. rewrite <- !app_assoc. constructor; assumption. Qed.

Lemma flush_ok w buffer contents bs : 0 < w <= compressed_available -> len buffer <= w -> Forall is_byte buffer -> packed bs contents ->
  exists contents' bs', flush c w buffer contents = Ok contents' /\ packed bs' contents' /\ concat bs' = concat bs ++ buffer.
Proof.
  intros W L B P. destruct good as (G1 & G2 & G3). destruct buffer as [|x buffer].
  - exists contents, bs. rewrite app_nil_r. auto.
  - unfold flush. destruct (G1 (x :: buffer) B (w + extra c w)) as (z & C & Lz & _ & _ & T).
    { apply G2; [split; [apply len_nonneg|exact L]|lia]. }
    rewrite C. cbn [bind]. exists (contents ++ addr_bytes (len z) ++ z), (bs ++ [x :: buffer]). split; [reflexivity|]. split.
    + rewrite <- (app_nil_r z) at 2. apply packed_app; [exact P|]. constructor; [discriminate|lia| |exact T|constructor].
      destruct (G2 (len (x :: buffer)) compressed_available) as [_ M]; [pose proof (len_nonneg (x :: buffer)); lia|lia|lia].
    + rewrite concat_app. cbn [concat]. rewrite app_nil_r. reflexivity.
Qed.
Lemma append_ok n : forall w buffer contents text bs, 0 < w <= compressed_available -> len buffer <= w -> Forall is_byte buffer -> Forall is_byte text -> packed bs contents ->
  len text + (if w <=? len buffer then 1 else 0) < Z.of_nat n ->
  exists buffer' contents' bs', compress_append c n w buffer contents text = Ok (CompressWriter w buffer' contents') /\ len buffer' <= w /\ Forall is_byte buffer' /\ packed bs' contents' /\
    concat bs' ++ buffer' = (concat bs ++ buffer) ++ text.
Proof.
  induction n as [|n IH]; intros w buffer contents text bs W L B T P N; [pose proof (len_nonneg text); destruct (w <=? len buffer); lia|].
  cbn [compress_append]. destruct (w <? len buffer + len text) eqn:E.
  - assert (K : len (firstn (Z.to_nat (w - len buffer)) text) = w - len buffer) by (unfold len in *; rewrite firstn_length; lia).
    destruct (flush_ok w (buffer ++ firstn (Z.to_nat (w - len buffer)) text) contents bs W) as (c' & bs' & F & P' & C').
    { rewrite len_app, K. lia. }
    { apply Forall_app. split; [exact B|]. rewrite <- (firstn_skipn (Z.to_nat (w - len buffer)) text), Forall_app in T. apply T. }
    { exact P. }
    rewrite F. cbn [bind].
    destruct (IH w [] c' (skipn (Z.to_nat (w - len buffer)) text) bs' W) as (b2 & c2 & bs2 & R & L2 & B2 & P2 & C2).
    { change (len []) with 0. lia. } { constructor. }
    { rewrite <- (firstn_skipn (Z.to_nat (w - len buffer)) text), Forall_app in T. apply T. }
    { exact P'. }
    { change (len []) with 0. replace (w <=? 0) with false by lia. unfold len in *. rewrite skipn_length.
      destruct (w <=? Z.of_nat (length buffer)) eqn:G; lia. }
    exists b2, c2, bs2. split; [exact R|]. split; [exact L2|]. split; [exact B2|]. split; [exact P2|].
    rewrite C2, C', app_nil_r, <- !app_assoc. do 2 f_equal. apply firstn_skipn.
  - exists (buffer ++ text), contents, bs. rewrite len_app. split; [reflexivity|]. split; [lia|]. split; [apply Forall_app; auto|]. split; [exact P|]. apply app_assoc.
Qed.
Lemma appends_ok texts : forall w buffer contents bs, 0 < w <= compressed_available -> len buffer <= w -> Forall is_byte buffer -> Forall (Forall is_byte) texts -> packed bs contents ->
  exists f bs', appends c (CompressWriter w buffer contents) texts = Ok f /\ packed bs' f /\ concat bs' = (concat bs ++ buffer) ++ concat texts.
Proof.
  induction texts as [|t texts IH]; intros w buffer contents bs W L B T P; cbn [appends concat].
  - destruct (flush_ok w buffer contents bs W L B P) as (f & bs' & F & P' & C'). exists f, bs'. rewrite app_nil_r. auto.
  - inversion T as [|? ? T1 T2]; subst.
    destruct (append_ok (S (S (length t))) w buffer contents t bs W L B T1 P) as (b2 & c2 & bs2 & R & L2 & B2 & P2 & C2).
    { unfold len at 1. destruct (w <=? len buffer); lia. }
    cbn [append]. rewrite R. cbn [bind]. destruct (IH w b2 c2 bs2 W L2 B2 T2 P2) as (f & bs' & F & P' & C').
    exists f, bs'. split; [exact F|]. split; [exact P'|]. rewrite C', C2, <- !app_assoc. reflexivity.
Qed.

(** What a CompressReader still has to give. *)
Definition left (r : reader) (rem : bytes) : Prop :=
  match r with
  | CompressReader file w block current available =>
      (available = 0 /\ rem = []) \/
      exists done rest bs, available = compressed_available /\ file = done ++ rest /\ w = len done /\ packed bs rest /\ 0 <= current <= len block /\
        rem = skipn (Z.to_nat current) block ++ concat bs
  | _ => False
  end.
Definition file_of (r : reader) : bytes := match r with CompressReader f _ _ _ _ => f | _ => [] end.
Lemma read_ok n : forall file w block current available amount acc rem, len file < 2 ^ 63 -> 0 <= amount -> left (CompressReader file w block current available) rem ->
  amount + len file - (if available =? 0 then len file else w) < Z.of_nat n ->
  exists r', compress_read c n file w block current available amount acc = Ok (acc ++ firstn (Z.to_nat amount) rem, r') /\ left r' (skipn (Z.to_nat amount) rem) /\ file_of r' = file.
Proof.
  destruct good as (G1 & G2 & G3).
  assert (G0 : 0 <= extra c compressed_available) by (apply (G2 compressed_available compressed_available); unfold compressed_available; lia).
  induction n as [|n IH]; intros file w block current available amount acc rem LF A LR N.
  { pose proof (len_nonneg file). cbn [left] in LR. destruct LR as [[-> _]|(done & rest & bs & -> & -> & -> & _)]; [change (0 =? 0) with true in N; cbv iota in N; lia|].
    rewrite len_app in N. pose proof (len_nonneg rest). change (compressed_available =? 0) with false in N. cbv iota in N. lia. }
  cbn [compress_read]. destruct (0 <? amount) eqn:E1; cbn [andb].
  2:{ replace amount with 0 in * by lia. cbn [Z.to_nat firstn skipn]. rewrite app_nil_r. eauto. }
  destruct LR as [[-> ->]|(done & rest & bs & -> & -> & -> & P & C & ->)].
  { change (0 <? 0) with false. rewrite firstn_nil, skipn_nil, app_nil_r. eexists. split; [reflexivity|]. split; [left; auto|reflexivity]. }
  change (0 <? compressed_available) with true. cbv iota. change (compressed_available =? 0) with false in N. cbv iota in N.
  rewrite len_app in N. pose proof (len_nonneg rest) as Lr. pose proof (len_nonneg done) as Ld.
  destruct (0 <? len block - current) eqn:E2.
  - set (m := if amount <=? len block - current then amount else len block - current).
    assert (M : 0 < m <= amount /\ m <= len block - current) by (unfold m; destruct (amount <=? len block - current) eqn:K; lia).
    destruct (IH (done ++ rest) (len done) block (current + m) compressed_available (amount - m) (acc ++ firstn (Z.to_nat m) (skipn (Z.to_nat current) block))
      (skipn (Z.to_nat (current + m)) block ++ concat bs) LF ltac:(lia)) as (r' & R & LR' & F).
    { right. exists done, rest, bs. repeat split; auto; lia. }
    { change (compressed_available =? 0) with false. cbv iota. rewrite len_app. lia. }
    rewrite R. exists r'. split; [|split; [|exact F]].
    + do 2 f_equal. rewrite <- app_assoc. f_equal.
      replace (Z.to_nat (current + m)) with (Z.to_nat current + Z.to_nat m)%nat by lia. rewrite <- skipn_add.
      set (s := skipn (Z.to_nat current) block). replace (Z.to_nat amount) with (Z.to_nat m + Z.to_nat (amount - m))%nat by lia.
      assert (Ls : (Z.to_nat m <= length s)%nat) by (unfold s, len in *; rewrite skipn_length; lia).
      apply firstn_two. exact Ls.
    + replace (skipn (Z.to_nat amount) (skipn (Z.to_nat current) block ++ concat bs)) with (skipn (Z.to_nat (amount - m)) (skipn (Z.to_nat (current + m)) block ++ concat bs)); [exact LR'|].
      replace (Z.to_nat (current + m)) with (Z.to_nat current + Z.to_nat m)%nat by lia. rewrite <- skipn_add.
      set (s := skipn (Z.to_nat current) block). replace (Z.to_nat amount) with (Z.to_nat m + Z.to_nat (amount - m))%nat by lia.
      assert (Ls : (Z.to_nat m <= length s)%nat) by (unfold s, len in *; rewrite skipn_length; lia).
      rewrite <- skipn_add. f_equal. rewrite skipn_app. replace (Z.to_nat m - length s)%nat with 0%nat by lia. reflexivity.
  - assert (K : skipn (Z.to_nat current) block = []) by (apply skipn_all2; unfold len in *; lia). rewrite K. cbn [app].
    rewrite len_app in LF. rewrite file_read_ok by lia. cbn [bind].
    assert (P8 : forall k, part (done ++ rest) (len done) k = firstn (Z.to_nat k) rest) by (intros k; unfold part; rewrite skipn_len_app; reflexivity).
    rewrite P8. inversion P as [E1'|b z bs' f Nb Lb Lz T Pf E3]; subst.
    + change (firstn (Z.to_nat 8) (@nil Z)) with (@nil Z). change (len (@nil Z) =? 0) with true. cbv iota. cbn [concat]. rewrite firstn_nil, skipn_nil, (app_nil_r acc). eexists.
      split; [reflexivity|]. split; [left; auto|reflexivity].
    + assert (F8 : forall l : bytes, firstn (Z.to_nat 8) (addr_bytes (len z) ++ l) = addr_bytes (len z)).
      { intros l. rewrite <- (len_addr_bytes (len z)). apply firstn_len_app. }
      rewrite F8, len_addr_bytes. change (8 =? 0) with false. change (negb (8 =? 8)) with false. cbv iota.
      pose proof (len_nonneg z) as Lz0. assert (LV : le_val (addr_bytes (len z)) = len z).
      { unfold addr_bytes. rewrite le_val_le_bytes. change (8 * Z.of_nat 8) with 64. apply Z.mod_small. lia. }
      rewrite LV.
      rewrite !len_app, len_addr_bytes in *. rewrite file_read_ok by lia. cbn [bind].
      replace (done ++ addr_bytes (len z) ++ z ++ f) with ((done ++ addr_bytes (len z)) ++ z ++ f) by (rewrite <- !app_assoc; reflexivity).
      assert (Pz : part ((done ++ addr_bytes (len z)) ++ z ++ f) (len done + 8) (len z) = z).
      { unfold part. rewrite <- (len_addr_bytes (len z)), <- len_app, skipn_len_app, firstn_len_app. reflexivity. }
      rewrite Pz. replace (compressed_available + extra c compressed_available + 1 <? len z) with false by lia.
      rewrite T by exact Lb. cbn [bind].
      destruct (IH ((done ++ addr_bytes (len z)) ++ z ++ f) (len done + 8 + len z) b 0 compressed_available amount acc (b ++ concat bs')) as (r' & R & LR' & F).
      { rewrite !len_app, len_addr_bytes. lia. } { lia. }
      { right. exists (done ++ addr_bytes (len z) ++ z), f, bs'. rewrite !len_app, len_addr_bytes, <- !app_assoc. repeat split; auto; pose proof (len_nonneg b); lia. }
      { change (compressed_available =? 0) with false. cbv iota. rewrite !len_app, len_addr_bytes. lia. }
      rewrite R. exists r'. split; [reflexivity|]. split; [exact LR'|exact F].
Qed.
Lemma read_next_ok r rem amount : left r rem -> len (file_of r) < 2 ^ 63 -> 0 <= amount ->
  exists r', read_next c r amount = Ok (firstn (Z.to_nat amount) rem, r') /\ left r' (skipn (Z.to_nat amount) rem) /\ file_of r' = file_of r.
Proof.
  intros LR LF A. destruct r as [| |file w block current available]; [destruct LR|destruct LR|]. unfold read_next.
  destruct (read_ok (S (length file + Z.to_nat amount)) file w block current available amount [] rem LF A LR) as (r' & R & LR' & F).
  { cbn [file_of] in LF. assert (0 <= (if available =? 0 then len file else w)). { pose proof (len_nonneg file). destruct LR as [[-> _]|(done & rest & bs & -> & _ & -> & _)]; [exact H|]. change (0 <= len done). apply len_nonneg. }
    unfold len at 1. lia. }
  exists r'. auto.
Qed.
Lemma served_ok text reqs : forall r pos, left r (skipn (Z.to_nat pos) text) -> 0 <= pos -> len (file_of r) < 2 ^ 63 -> Forall in_turn reqs ->
  reads c r reqs = Ok (served text pos reqs).
Proof.
  induction reqs as [|q reqs IH]; intros r pos LR PP LF T; [reflexivity|]. inversion T as [|? ? T1 T2]; subst.
  destruct q as [n|]; [|destruct T1]. cbn [reads served]. cbn [in_turn] in T1.
  destruct (read_next_ok r _ n LR LF T1) as (r' & R & LR' & F). rewrite R. cbn [bind fst snd].
  rewrite (IH r' (pos + len (part text pos n))); [reflexivity| | | |exact T2].
  - replace (skipn (Z.to_nat (pos + len (part text pos n))) text) with (skipn (Z.to_nat n) (skipn (Z.to_nat pos) text)); [exact LR'|].
    rewrite skipn_add. unfold part, len. rewrite firstn_length, skipn_length.
    destruct (le_lt_dec (length text) (Z.to_nat pos)) as [L|L]; [rewrite !skipn_all2 by lia; reflexivity|].
    destruct (le_lt_dec (length text - Z.to_nat pos) (Z.to_nat n)) as [K|K]; [rewrite !skipn_all2 by lia; reflexivity|]. f_equal. lia.
  - pose proof (len_nonneg (part text pos n)). lia.
  - rewrite F. exact LF.
Qed.
End Z.

Lemma plain_served zlib text : forall reqs r pos, r = FileReader text pos \/ r = FullReader text pos -> len text < 2 ^ 63 -> 0 <= pos < 2 ^ 64 - 2 ^ 63 -> Forall (below (2 ^ 63)) reqs ->
  reads zlib r reqs = Ok (served text pos reqs).
Proof.
  induction reqs as [|q reqs IH]; intros r pos RR L PP T; [reflexivity|]. inversion T as [|? ? T1 T2]; subst.
  assert (NX : forall w n, 0 <= w < 2 ^ 63 -> len (part text w n) + w < 2 ^ 63).
  { intros w n Hw. unfold part, len in *. rewrite firstn_length, skipn_length. lia. }
  destruct q as [n|w n]; cbn [below] in T1; destruct RR as [->| ->]; cbn [reads served read_from read_next];
    rewrite ?full_read_same, file_read_ok by lia; cbn [bind fst snd];
    match goal with |- context [served text ?p reqs] => rewrite (IH _ p); [reflexivity|auto|exact L| |exact T2] end.
  all: match goal with H : forall w n, _ -> len (part ?t w n) + w < _ |- 0 <= ?p + len (part ?t ?p ?n) < _ => pose proof (H p n ltac:(lia)); pose proof (len_nonneg (part t p n)); lia end.
Qed.

Lemma same_ok zlib recipe texts requests : good_zlib zlib -> Forall (Forall is_byte) texts ->
  In recipe plain_recipes /\ Forall (below (2 ^ 63)) requests \/ In recipe compressed_recipes /\ Forall in_turn requests ->
  exists f, write_file zlib recipe texts = Ok (Some f) /\
    (len f < 2 ^ 63 -> read_file zlib recipe (Some f) requests = Ok (Some (served (concat texts) 0 requests))).
Proof.
  intros G T [[I Q]|[I Q]].
  - assert (W : forall t acc, appends zlib (FileWriter acc) t = Ok (acc ++ concat t)).
    { induction t as [|x t IH]; intros acc; cbn [appends concat closed append bind]; [rewrite app_nil_r; reflexivity|]. rewrite IH, <- app_assoc. reflexivity. }
    exists (concat texts). destruct I as [<-|[<-|[<-|[]]]].
    all: unfold write_file, read_file; match goal with |- context [writer_make ?x] => change (writer_make x) with (Some (FileWriter [])) end; cbv iota; rewrite W; cbn [app bind]; split; [reflexivity|intros L].
    1,2: match goal with |- context [reader_make ?x ?y] => change (reader_make x y) with (Some (FileReader (concat texts) 0)) end; cbv iota.
    3: match goal with |- context [reader_make ?x ?y] => change (reader_make x y) with (Some (FullReader (concat texts) 0)) end; cbv iota.
    all: rewrite plain_served with (text := concat texts) (pos := 0); auto; lia.
  - assert (W : exists w, 0 < w <= compressed_available /\ writer_make recipe = Some (CompressWriter w [] [])).
    { destruct I as [<-|[<-|[]]]; [exists compressed_available|exists compressed_testing]; split; try reflexivity; unfold compressed_available, compressed_testing; lia. }
    destruct W as (w & W & M).
    destruct (appends_ok zlib G texts w [] [] [] W) as (f & bs & A & P & C); [change (len []) with 0; lia|constructor|exact T|constructor|].
    exists f. unfold write_file. rewrite M, A. cbn [bind]. split; [reflexivity|]. intros L. unfold read_file.
    replace (reader_make recipe (Some f)) with (Some (CompressReader f 0 [] 0 compressed_available)) by (destruct I as [<-|[<-|[]]]; reflexivity).
    rewrite (served_ok zlib G (concat texts)) with (pos := 0); [reflexivity| |lia|exact L|exact Q].
    right. exists [], f, bs. cbn [concat app] in C. repeat split; auto; cbn; lia.
Qed.

(** ** Names of temporary files *)
Lemma padded_digits n : 0 <= n -> Forall (fun d => 48 <= d <= 57) (padded n) /\ dec_val 0 (padded n) = n.
Proof.
  intros H. unfold padded, dec. replace (n <? 0) with false by lia. destruct (dec_nat_ok n H) as (A & B & _). split.
  - apply Forall_app. split.
    + apply Forall_forall. intros x Hx. apply repeat_spec in Hx. subst x. lia.
    + apply Forall_forall. intros x Hx. rewrite forallb_forall in A. specialize (A x Hx). unfold is_digit in A. lia.
  - rewrite dec_val_app. replace (dec_val 0 (repeat 48 _)) with 0; [exact B|]. clear. induction (8 - length _)%nat as [|k IH]; [reflexivity|]. exact IH.
Qed.
Definition tail_of (e : bytes) : bytes := match e with [] => [] | _ => lit "." ++ e end.
Lemma temp_inj w e1 e2 a b : 0 <= a -> 0 <= b -> fst (make_temp w e1 a) = fst (make_temp w e2 b) -> a = b.
Proof.
  intros A B E. unfold make_temp, make_name in E. cbn [fst] in E. apply app_inv_head in E. apply app_inv_head in E. apply app_inv_head in E.
  fold (tail_of e1) in E. fold (tail_of e2) in E.
  destruct (padded_digits a A) as [D1 V1]. destruct (padded_digits b B) as [D2 V2]. rewrite <- V1, <- V2. f_equal.
  assert (K : forall x y s t, Forall (fun d => 48 <= d <= 57) x -> Forall (fun d => 48 <= d <= 57) y -> x ++ tail_of s = y ++ tail_of t -> x = y).
  { clear. induction x as [|c x IH]; intros [|d y] s t X Y E; [reflexivity| | |].
    - exfalso. inversion Y; subst. destruct s; [discriminate|]. injection E as E _. lia.
    - exfalso. inversion X; subst. destruct t; [discriminate|]. injection E as E _. lia.
    - inversion X; inversion Y; subst. cbn [app] in E. injection E as -> E. f_equal. eapply IH; eauto. }
  exact (K _ _ _ _ D1 D2 E).
Qed.
Lemma make_temps_in w exts : forall c x, 0 <= c -> c + len exts <= 2 ^ 32 -> In x (make_temps w exts c) -> exists e d, c <= d /\ d < 2 ^ 32 /\ x = fst (make_temp w e d).
Proof.
  induction exts as [|e exts IH]; intros c x C L I; [destruct I|]. cbn [make_temps] in I. unfold make_temp at 1 in I. rewrite len_cons in L. pose proof (len_nonneg exts) as L0.
  cbn [In] in I. destruct I as [<-|I].
  - exists e, c. split; [lia|]. split; [lia|]. reflexivity.
  - destruct (Z.eq_dec (c + 1) (2 ^ 32)) as [K|K].
    + assert (exts = []) by (destruct exts; [reflexivity|rewrite len_cons in L; pose proof (len_nonneg exts); lia]). subst exts. destruct I.
    + rewrite Z.mod_small in I by (change 4294967296 with (2 ^ 32); lia). destruct (IH (c + 1) x ltac:(lia) ltac:(lia) I) as (e' & d & D1 & D2 & E). exists e', d. split; [lia|]. auto.
Qed.
Lemma temps_distinct w exts : len exts <= 2 ^ 32 -> NoDup (make_temps w exts 0).
Proof.
  assert (K : forall exts c, 0 <= c -> c + len exts <= 2 ^ 32 -> NoDup (make_temps w exts c)); [|intros L; apply K; lia].
  induction exts0 as [|e es IH]; intros c C L; [constructor|]. cbn [make_temps]. unfold make_temp at 1. rewrite len_cons in L. pose proof (len_nonneg es) as L0.
  destruct (Z.eq_dec (c + 1) (2 ^ 32)) as [K|K].
  - assert (es = []) by (destruct es; [reflexivity|rewrite len_cons in L; pose proof (len_nonneg es); lia]). subst es. constructor; [intros []|constructor].
  - rewrite Z.mod_small by (change 4294967296 with (2 ^ 32); lia). constructor; [|apply IH; lia].
    intros I. destruct (make_temps_in w es (c + 1) _ ltac:(lia) ltac:(lia) I) as (e' & d & D1 & D2 & E).
    assert (c = d); [|lia]. eapply (temp_inj w e e'); [lia|lia|]. exact E.
Qed.
Lemma temps_wrap w e exts : len exts = 2 ^ 32 -> nth 0 (make_temps w (e :: exts) 0) [] = nth (length exts) (make_temps w (exts ++ [e]) 0) [].
Proof.
  intros L. assert (K : forall es c, 0 <= c -> nth (length es) (make_temps w (es ++ [e]) c) [] = fst (make_temp w e (if Nat.eqb (length es) 0 then c else (c + len es) mod 2 ^ 32))).
  { induction es as [|x es IH]; intros c C; [reflexivity|]. cbn [length app make_temps]. unfold make_temp at 1. cbn [nth].
    rewrite IH by (apply Z.mod_pos_bound; lia). cbn [Nat.eqb]. change 4294967296 with (2 ^ 32). rewrite len_cons. destruct es as [|y es]; cbn [length Nat.eqb].
    - change (len (@nil bytes)) with 0. replace (c + (1 + 0)) with (c + 1) by lia. reflexivity.
    - f_equal. f_equal. rewrite Zplus_mod_idemp_l. f_equal. lia. }
  rewrite K by lia. rewrite Z.add_0_l, L. destruct exts as [|x exts]; [discriminate L|]. cbn [length Nat.eqb]. rewrite Z_mod_same_full. reflexivity.
Qed.
Lemma temps_pattern w exts : forall c x, In x (make_temps w exts c) -> exists r, x = w ++ lit "/temp." ++ r.
Proof.
  induction exts as [|e exts IH]; intros c x I; [destruct I|]. cbn [make_temps] in I. unfold make_temp at 1 in I. destruct I as [<-|I]; [|exact (IH _ _ I)].
  unfold make_name. eexists. reflexivity.
Qed.

(** ** Witnesses *)
Definition w_zlib : compressor := Compressor (fun b _ => Ok b) (fun b _ => Ok b) (fun _ => 65536).
Lemma w_zlib_good : good_zlib w_zlib.
Proof.
  split; [|split].
  - intros b B available A. exists b. unfold crush. replace (available <? len b + extra w_zlib (len b)) with false by lia.
    split; [destruct b; reflexivity|]. split; [cbn; lia|]. split; [exact B|]. split; [auto|]. intros room _. destruct b; reflexivity.
  - intros n m H1 H2. cbn. lia.
  - vm_compute. reflexivity.
Qed.
Definition w_texts : list bytes := [lit "one "; repeat 120 300; []; lit "end"].
Lemma w_texts_ok : Forall (Forall is_byte) w_texts.
Proof.
  assert (K : forall t, forallb (fun c => (0 <=? c) && (c <? 256)) t = true -> Forall is_byte t).
  { intros t H. apply Forall_forall. intros x Hx. rewrite forallb_forall in H. specialize (H x Hx). unfold is_byte. lia. }
  unfold w_texts. constructor; [apply K; reflexivity|]. constructor; [apply K; vm_compute; reflexivity|]. constructor; [constructor|]. constructor; [apply K; reflexivity|constructor].
Qed.
Lemma w_requests : let q := [Next 3; Next 0; Next 299; Next 100; Next 1] in
  Forall in_turn q /\ match write_file w_zlib (lit "compression test") w_texts with Ok (Some f) => len f = 331 /\
    read_file w_zlib (lit "compression test") (Some f) q = Ok (Some [lit "one"; []; 32 :: repeat 120 298; [120; 120; 101; 110; 100]; []]) | _ => False end.
Proof. split; [repeat (constructor; [cbn; lia|]); constructor|]. vm_compute. auto. Qed.
Lemma any_recipe_refuted zlib : writer_make (lit "typo") = None /\ exists r, reader_make (lit "typo") (Some (lit "text")) = Some r /\ read_next zlib r 1 = UB.
Proof. split; [reflexivity|]. eexists. split; [reflexivity|]. reflexivity. Qed.
Lemma huge_refuted zlib : forall r, In r [lit "file"; lit "full"] -> read_file zlib r (Some (lit "text")) [Next 1; Next (2 ^ 64 - 1)] = UB.
Proof. intros r [<-|[<-|[]]]; reflexivity. Qed.
