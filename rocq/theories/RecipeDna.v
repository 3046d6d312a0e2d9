(** The configuration file: what is set is what is read. *)
From Verif Require Import Base Bytes RecipeModel RecipeSpec RecipeProofs.

Definition tr (c : Z) : Z := if c =? 10 then 32 else c.
Lemma lines_tr s : forall acc, concat (map (fun l => l ++ [32]) (lines (s ++ [10]) acc)) = rev acc ++ map tr s ++ [32].
Proof.
  induction s as [|c s IH]; intros acc; [cbn [app lines map]; zz; cbn; rewrite app_nil_r; reflexivity|]. cbn [app lines map]. unfold tr at 1. destruct (Z.eqb_spec c 10) as [->|N].
  - cbn [map concat]. rewrite IH, <- app_assoc. reflexivity.
  - rewrite IH. cbn [rev]. rewrite <- app_assoc. reflexivity.
Qed.
Lemma lines_head p s : ~ In 10 p -> forall acc, lines (p ++ 10 :: s) acc = (rev acc ++ p) :: lines s [].
Proof.
  induction p as [|c p IH]; intros N acc; cbn [app lines]; zz; [rewrite app_nil_r; reflexivity|]. destruct (Z.eqb_spec c 10) as [->|Nc]; [destruct N; left; reflexivity|]. rewrite IH; [|intros J; apply N; right; exact J]. cbn [rev]. rewrite <- app_assoc. reflexivity.
Qed.
Lemma header_line : ~ In 10 header.
Proof. unfold header. cbn. intros H. repeat (destruct H as [H|H]; [discriminate H|]). exact H. Qed.
Lemma read_write x : read_dna (write_dna (x ++ [10])) = Some (map tr x ++ [32]).
Proof. unfold read_dna, write_dna. cbn [app]. rewrite (lines_head header _ header_line). cbn [rev app]. rewrite eqb_bytes_refl, (lines_tr x []). reflexivity. Qed.

Lemma tr_spaces w : spaces w -> spaces (map tr w).
Proof. intros S c J. apply in_map_iff in J. destruct J as (c' & <- & J). unfold tr. destruct (c' =? 10); [reflexivity|apply S, J]. Qed.
Lemma tr_same v : ~ In 10 v -> map tr v = v.
Proof. induction v as [|c v IH]; intros N; [reflexivity|]. cbn. rewrite IH by (intros J; apply N; right; exact J). unfold tr. destruct (Z.eqb_spec c 10) as [->|]; [destruct N; left; reflexivity|reflexivity]. Qed.
Lemma name_line k : name k -> ~ In 10 k.
Proof. intros [_ H] J. specialize (H _ J). discriminate. Qed.
Lemma items_tr l : (forall k t, In (k, t) l -> name k) -> (forall k t, In (k, t) l -> forall x, renders x t -> renders (map tr x) t) -> forall b, items b l -> items (map tr b) l.
Proof.
  induction l as [|[k t] l IH]; intros N R b I; cbn [items] in *; [subst; reflexivity|]. destruct I as (w & x & rest & -> & S & Rx & I). exists (map tr w), (map tr x), (map tr rest). split; [|split; [apply tr_spaces, S|split; [apply (R k t (or_introl eq_refl)), Rx|]]].
  - rewrite !map_app. cbn [map]. rewrite map_app. cbn [map]. rewrite (tr_same k) by (apply name_line, (N k t); left; reflexivity). reflexivity.
  - apply IH; [intros k' t' J; apply (N k' t'); right; exact J|intros k' t' J; apply (R k' t'); right; exact J|exact I].
Qed.
Lemma renders_tr t : ok t -> texts one_line t -> forall x, renders x t -> renders (map tr x) t.
Proof.
  induction t as [v|l IH] using conf_ind'; intros O L x R.
  - cbn in *. subst x. cbn [map]. rewrite map_app, tr_same by exact L. reflexivity.
  - destruct O as [O E]. cbn [texts] in L. rewrite every_in in E, L. rewrite renders_map in *. destruct R as (b & w & -> & S & I). exists (map tr b), (map tr w). split; [cbn [map]; rewrite !map_app; reflexivity|]. split; [apply tr_spaces, S|]. apply items_tr; [intros k t J; apply (ordered_names l k t O J)|intros k t J; apply (IH k t J (E k t J) (L k t J))|exact I].
Qed.
Theorem dna_says m l : ordered m -> pairs says m l -> texts clean (Map l) -> texts one_line (Map l) -> holds_conf (write_dna (freeze m)) l.
Proof.
  intros O P C L. destruct (freeze_renders m l P) as (x & -> & R). exists (map tr x ++ [32]). split; [apply read_write|]. assert (Ok : ok (Map l)) by (split; [apply (pairs_ordered says l m P), O|apply (pairs_ok m l P C)]).
  apply (says_renders (Map l) (map tr x) [] [32] Ok (renders_tr (Map l) Ok L x R) no_spaces). intros c [<-|[]]. reflexivity.
Qed.

Lemma pairs_put {A B} (P : A -> B -> Prop) k v t l : forall m, P v t -> pairs P m l -> pairs P (put k v m) (put k t l).
Proof.
  induction l as [|[k1 t1] l IH]; intros [|[k2 v2] m] H Hp; cbn in Hp; try contradiction; [cbn; auto|]. destruct Hp as (-> & H1 & Hp). cbn [put]. destruct (eqb_bytes k k1); [cbn; auto|]. destruct (before k k1); [cbn; auto|]. cbn. auto.
Qed.
Lemma pairs_get {A B} (P : A -> B -> Prop) k l : forall m, pairs P m l -> match get k m, get k l with Some v, Some t => P v t | None, None => True | _, _ => False end.
Proof. induction l as [|[k1 t1] l IH]; intros [|[k2 v2] m] H; cbn in H; try contradiction; [exact Logic.I|]. destruct H as (-> & H1 & H). cbn [get]. destruct (eqb_bytes k k1); [exact H1|apply IH, H]. Qed.
Lemma every_put {A} (P : A -> Prop) k v l : P v -> every P l -> every P (put k v l).
Proof. intros H. induction l as [|[k1 t1] l IH]; intros E; [cbn; auto|]. destruct E as [E1 E]. cbn [put]. destruct (eqb_bytes k k1); [cbn; auto|]. destruct (before k k1); cbn; auto. Qed.
Lemma get_every {A} (P : A -> Prop) k v l : every P l -> get k l = Some v -> P v.
Proof. induction l as [|[k1 t1] l IH]; intros E G; [discriminate|]. destruct E as [E1 E]. cbn [get] in G. destruct (eqb_bytes k k1); [congruence|auto]. Qed.
Lemma get_put {A} k k' (v : A) l : get k' (put k v l) = if eqb_bytes k' k then Some v else get k' l.
Proof.
  induction l as [|[k1 t1] l IH]; [reflexivity|]. cbn [put]. destruct (eqb_bytes k k1) eqn:E; [apply eqb_bytes_eq in E; subst; cbn; destruct (eqb_bytes k' k1); reflexivity|]. destruct (before k k1); [reflexivity|]. cbn [get]. rewrite IH. destruct (eqb_bytes k' k1) eqn:E1; [|reflexivity]. apply eqb_bytes_eq in E1. subst. destruct (eqb_bytes k1 k) eqn:E2; [|reflexivity]. apply eqb_bytes_eq in E2. subst. rewrite eqb_bytes_refl in E. discriminate.
Qed.
Lemma parameters_name : name parameters.
Proof. split; [discriminate|]. unfold parameters. cbn. intros c H. repeat (destruct H as [<-|H]; [reflexivity|]). destruct H. Qed.
Theorem set_holds file l p k v t : holds_conf file l -> texts clean (Map l) -> texts one_line (Map l) -> extra l = Some p -> name k -> says v t -> texts clean t -> texts one_line t ->
  exists file', set_parameter_in_dna file k v = Some file' /\ holds_conf file' (put parameters (Map (put k t p)) l).
Proof.
  intros (dna & Ed & m & Em & P) C L X N S Ct Lt. unfold set_parameter_in_dna. rewrite Ed, Em. cbn [texts] in C, L.
  assert (K : exists ps, (match get parameters m with None => Some [] | Some q => cook q end) = Some ps /\ ordered ps /\ pairs says ps p /\ every (texts clean) p /\ every (texts one_line) p).
  { unfold extra in X. pose proof (pairs_get says parameters l m P) as G. destruct (get parameters m) as [q|], (get parameters l) as [tq|] eqn:El; try contradiction.
    - destruct tq as [u|l']; [discriminate|]. injection X as ->. destruct G as (ps & Eq & Pq). exists ps. split; [exact Eq|]. split; [apply (cook_spec q ps Eq)|]. split; [exact Pq|]. split; [apply (get_every _ _ _ _ C El)|apply (get_every _ _ _ _ L El)].
    - injection X as <-. exists []. cbn. auto. }
  destruct K as (ps & -> & O & Pp & Cp & Lp). eexists. split; [reflexivity|].
  assert (Sp : says (freeze (put k v ps)) (Map (put k t p))) by (apply freeze_says; [apply put_ordered; assumption|apply pairs_put; assumption|apply every_put; assumption]).
  apply dna_says; [apply put_ordered; [exact parameters_name|apply (cook_spec dna m Em)]|apply pairs_put; assumption|cbn [texts]; apply every_put; [cbn [texts]; apply every_put; assumption|exact C]|cbn [texts]; apply every_put; [cbn [texts]; apply every_put; assumption|exact L]].
Qed.
Theorem get_holds file l p k : holds_conf file l -> extra l = Some p -> exists v, get_parameter_from_dna file k = Some v /\ match get k p with Some t => says v t | None => v = [] end.
Proof.
  intros (dna & Ed & m & Em & P) X. unfold get_parameter_from_dna. rewrite Ed, Em. unfold extra in X. pose proof (pairs_get says parameters l m P) as G. destruct (get parameters m) as [q|], (get parameters l) as [tq|] eqn:El; try contradiction.
  - destruct tq as [u|l']; [discriminate|]. injection X as ->. destruct G as (ps & Eq & Pq). rewrite Eq. pose proof (pairs_get says k p ps Pq) as G. destruct (get k ps) as [v|], (get k p) as [t|]; try contradiction; [exists v; split; [reflexivity|exact G]|exists []; split; reflexivity].
  - injection X as <-. exists []. split; reflexivity.
Qed.
(** Any number of settings, one after the other. *)
Fixpoint set_all (file : bytes) (kvs : list (bytes * bytes)) : option bytes :=
  match kvs with [] => Some file | (k, v) :: r => match set_parameter_in_dna file k v with Some file' => set_all file' r | None => None end end.
(** The last value set under a name. *)
Fixpoint last_set (k : bytes) (kvs : list (bytes * bytes)) (d : option bytes) : option bytes :=
  match kvs with [] => d | (k', v) :: r => last_set k r (if eqb_bytes k k' then Some v else d) end.
Lemma set_get kvs : forall file l p, holds_conf file l -> texts clean (Map l) -> texts one_line (Map l) -> extra l = Some p ->
  Forall (fun kv => name (fst kv) /\ cook (snd kv) = None /\ clean (snd kv) /\ one_line (snd kv)) kvs ->
  exists file', set_all file kvs = Some file' /\
    (exists l' p', holds_conf file' l' /\ extra l' = Some p' /\ (forall k, k <> parameters -> get k l' = get k l) /\
       forall k, get k p' = match last_set k kvs None with Some v => Some (Str v) | None => get k p end).
Proof.
  induction kvs as [|[k v] kvs IH]; intros file l p H C L X F; [exists file; split; [reflexivity|]; exists l, p; auto|]. inversion F as [|? ? (N & Cv & Cl & Lv) F']; subst. cbn [fst snd] in *.
  destruct (set_holds file l p k v (Str v) H C L X N ltac:(cbn; auto) Cl Lv) as (f1 & E1 & H1). cbn [set_all]. rewrite E1.
  assert (Cp : every (texts clean) p /\ every (texts one_line) p).
  { unfold extra in X. destruct (get parameters l) as [[u|l']|] eqn:El; [discriminate| |injection X as <-; cbn; auto]. injection X as ->. split; [apply (get_every _ _ _ _ C El)|apply (get_every _ _ _ _ L El)]. }
  assert (X1 : extra (put parameters (Map (put k (Str v) p)) l) = Some (put k (Str v) p)) by (unfold extra; rewrite get_put, eqb_bytes_refl; reflexivity).
  destruct (IH f1 _ (put k (Str v) p) H1) as (f2 & E2 & l2 & p2 & H2 & X2 & G2 & Gp2); [cbn [texts]; apply every_put; [cbn [texts]; apply every_put; [exact Cl|apply Cp]|exact C]|cbn [texts]; apply every_put; [cbn [texts]; apply every_put; [exact Lv|apply Cp]|exact L]|exact X1|exact F'|].
  exists f2. split; [exact E2|]. exists l2, p2. split; [exact H2|]. split; [exact X2|]. split.
  - intros k' Nk. rewrite (G2 k' Nk), get_put. apply eqb_bytes_neq in Nk. rewrite Nk. reflexivity.
  - intros k'. rewrite Gp2, get_put. cbn [last_set]. assert (Z : forall kvs d, last_set k' kvs d = match last_set k' kvs None with Some v => Some v | None => d end).
    { clear. induction kvs as [|[k1 v1] kvs IH]; intros d; [reflexivity|]. cbn [last_set]. destruct (eqb_bytes k' k1); [|apply IH]. rewrite (IH (Some v1)). destruct (last_set k' kvs None); reflexivity. }
    rewrite (Z kvs (if eqb_bytes k' k then Some v else None)). destruct (last_set k' kvs None); [reflexivity|]. destruct (eqb_bytes k' k); reflexivity.
Qed.
Theorem parameters_kept kvs file l p k : holds_conf file l -> texts clean (Map l) -> texts one_line (Map l) -> extra l = Some p ->
  Forall (fun kv => name (fst kv) /\ cook (snd kv) = None /\ clean (snd kv) /\ one_line (snd kv)) kvs ->
  exists file', set_all file kvs = Some file' /\ (exists l', holds_conf file' l' /\ forall k', k' <> parameters -> get k' l' = get k' l) /\
    match last_set k kvs None with
    | Some v => get_parameter_from_dna file' k = Some v
    | None => exists v, get_parameter_from_dna file' k = Some v /\ match get k p with Some t => says v t | None => v = [] end
    end.
Proof.
  intros H C L X F. destruct (set_get kvs file l p H C L X F) as (f & E & l' & p' & H' & X' & G & Gp). exists f. split; [exact E|]. split; [eauto|]. destruct (get_holds f l' p' k H' X') as (v & Ev & Hv). rewrite Gp in Hv. destruct (last_set k kvs None) as [u|]; [|eauto]. cbn in Hv. destruct Hv as [-> _]. exact Ev.
Qed.
(** freeze of a text instead of a map writes something that does not cook. *)
Theorem freeze_value_never v t : says v t -> texts clean t -> cook (freeze_value v) = None.
Proof.
  intros S C. pose proof (says_ok t v S C) as O. unfold freeze_value. pose proof (dump_renders t (Datatypes.S (length v)) v 0 S ltac:(lia)) as R. destruct t as [u|l]; [cbn [renders] in R; rewrite R; reflexivity|].
  destruct O as [O E]. apply renders_map in R. destruct R as (b & w & -> & Sw & I). unfold cook. cbn [app skip]; unfold is_space; zz; cbn [at0 tl]; zz.
  rewrite <- !app_assoc. cbn [app]. match goal with |- parse_items ?n _ _ = _ => destruct (parse_renders l b w [44; 10] [] n O E I Sw) as (vs & _ & Ev) end; [pose proof (items_length l b I); cbn [length]; rewrite !app_length; lia|]. rewrite Ev. reflexivity.
Qed.
