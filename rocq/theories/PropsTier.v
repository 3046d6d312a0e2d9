(** C69: tiers of queries built from the words of a query. *)
From Verif Require Import Base Bytes HopperModel GclSpec UnaryModel VectorModel QueryModel QuerySpec RankModel RankSpec RankTop RankWitness
  TierModel TierSpec TierProofs TierSem TierTop TierWitness.

(** C69: the tiers built for a query are, for its at most 16 rarest distinct words, all the
    sets of these words, each in one tier, heavier sets first, cut into tiers where the weight
    has dropped by delta; the text of each tier parses, and says "one of these sets".  Asked:
    the words can stand in a query as they are. *)
Theorem C69_tiers : forall (F : Type) (zero : F) add gt near sort rarity split query,
  weak_order gt -> sorts sort -> (forall t, In t (split query) -> plain t) ->
  exists tiers groups, build_tiers zero add gt near split sort rarity query = Ok tiers /\
    tiers_of zero add gt near rarity (split query) groups /\
    Forall2 (fun text g => from_string text = Ok (Some (tier_query g))) tiers groups.
Proof. exact (fun F => @build_ok F). Qed.
Print Assumptions C69_tiers.
Example C69_tiers_ex : weak_order Z.gtb /\ sorts isrt /\ (forall t, In t (tsplit tquery) -> plain t) /\
  build_tiers 0 Z.add Z.gtb tnear tsplit isrt trare tquery =
  Ok [lit "(+ (^ c b a ) (^ c b ))"; lit "(+ (^ c a ) (^ b a ) (... c c))"; lit "(... b b)"; lit "(... a a)"].
Proof. exact (conj z_gt (conj isrt_sorts (conj tplain tbuild_run))). Qed.

(** C69: the query of a tier finds something in an interval exactly if the interval holds all
    the words of one of its sets, or two occurrences of the word of a set of one. *)
Theorem C69_matches : forall E g d (o : hobj),
  g <> [] -> (forall c, In c g -> c <> []) -> finite d ->
  answers (projT1 o) (projT2 o) (meaning E (tier_query g)) ->
  (exists x, meaning E (tier_query g) x /\ nests d x) <-> exists c, In c g /\ holds E d c.
Proof. exact tier_matches. Qed.
Print Assumptions C69_matches.
Example C69_matches_ex : answers _ (projT2 tmatch) (meaning tset (tier_query [[lit "c"; lit "b"]; [lit "a"]])) /\
  holds tset (Iv 20 29 0) [lit "a"] /\ ~ holds tset (Iv 20 29 0) [lit "c"; lit "b"].
Proof. exact tmatch_ok. Qed.

(** C69: ranking by the text of a query: the best containers that hold a set of the first tier,
    then the best of the next among the containers not taken yet, until there are [depth].
    Asked: the index answers terms, tokens are plain words at single positions from 0 on, the
    containers do not overlap and the weights of passages are positive. *)
Theorem C69_ranking : forall (F : Type) (zero : F) add lt gt near sort rarity E split idx count enabled C c SC cs weight fake depth query,
  weak_order lt -> weak_order gt -> sorts sort -> answers C c SC -> listed SC cs -> apart SC ->
  tokens_indexed E split -> index_for idx E -> (forall t x, E t x -> 0 <= ip x) -> (forall p q, positive zero add lt (weight p q)) ->
  exists out groups picks alls,
    tiered_by_text zero add lt gt near split sort rarity idx count enabled weight fake C c depth query = Ok out /\
    tiers_of zero add gt near rarity (split query) groups /\
    Forall2 (tier_results zero add E weight cs) groups alls /\
    tiered lt depth alls [] picks /\ map place out = map place picks /\
    forall i r, nth_error out i = Some r -> rscore r = fake (depth - i)%nat.
Proof. exact (fun F => @ranked_by_text F). Qed.
Print Assumptions C69_ranking.
(** C69: with room for all of them, the containers ranked are those that hold two of the words
    kept, or one of them twice. *)
Theorem C69_found : forall (F : Type) (zero : F) add lt gt near sort rarity E split idx count enabled C c SC cs weight fake depth query,
  weak_order lt -> weak_order gt -> sorts sort -> answers C c SC -> listed SC cs -> apart SC ->
  tokens_indexed E split -> index_for idx E -> (forall t x, E t x -> 0 <= ip x) -> (forall p q, positive zero add lt (weight p q)) ->
  (length cs <= depth)%nat ->
  exists out kept,
    tiered_by_text zero add lt gt near split sort rarity idx count enabled weight fake C c depth query = Ok out /\
    rarest gt rarity (split query) kept /\
    (forall r, In r out -> exists d, In d cs /\ rcp r = ip d) /\
    forall d, In d cs -> (In (ip d) (map rcp out) <->
      (exists t u, In t kept /\ In u kept /\ t <> u /\ (exists x, E t x /\ nests d x) /\ (exists x, E u x /\ nests d x)) \/
      (exists t a b, In t kept /\ E t a /\ E t b /\ nests d a /\ nests d b /\ iq a < ip b)).
Proof. exact (fun F => @found_by_words F). Qed.
Print Assumptions C69_found.
Example C69_ranking_ex : tokens_indexed tset tsplit /\ index_for tix tset /\ (forall t x, tset t x -> 0 <= ip x) /\
  (forall p q, positive 0 Z.add Z.ltb (tweight p q)) /\ (length rconts <= 9)%nat /\
  (answers _ (st rconts) (set_of rconts) /\ listed (set_of rconts) rconts) /\ apart (set_of rconts) /\ weak_order Z.gtb /\ sorts isrt.
Proof. exact tall_ok. Qed.
Example C69_ranking_run : trank 9 = Ok [Res 31 35 30 39 9; Res 1 2 0 9 8; Res 21 25 20 29 7] /\ trank 2 = Ok [Res 31 35 30 39 2; Res 1 2 0 9 1].
Proof. exact trank_run. Qed.

(** C69, refuted: a container that holds a word of the query need not be ranked, although there
    is room for it: the query for one word asks for the word twice. *)
Theorem C69_one_word_refuted : exists out d t, trank 9 = Ok out /\ (length rconts <= 9)%nat /\ In d rconts /\ In t (tsplit tquery) /\
  (exists x, tset t x /\ nests d x) /\ ~ In (ip d) (map rcp out).
Proof. exact tmissed. Qed.
Print Assumptions C69_one_word_refuted.
