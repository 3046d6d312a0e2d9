(** What a description of a forager says, as JSON text. *)
From Verif Require Import Base Bytes RecipeModel.
Local Arguments chr s%string_scope.

(** A std::map<std::string, std::string> as the list of its entries, in order. *)
Fixpoint is_map (m : params) : Prop :=
  match m with
  | [] => True
  | (k, _) :: r => (forall k' v', In (k', v') r -> before k k' = true) /\ is_map r
  end.
Definition of_bytes (s : bytes) : Prop := Forall is_byte s.
Definition map_of_bytes (m : params) : Prop := Forall (fun '(k, v) => of_bytes k /\ of_bytes v) m.
Definition no_colon (s : bytes) : Prop := ~ In (chr ":") s.

(** ** JSON *)
Definition white (w : bytes) : Prop := Forall (fun c => c = 32 \/ 9 <= c <= 13) w.
Definition short_escapes : list (Z * Z) :=
  [(34, 34); (92, 92); (chr "/", chr "/"); (chr "b", 8); (chr "f", 12); (chr "n", 10); (chr "r", 13); (chr "t", 9)].
Inductive hex_digit : Z -> Z -> Prop :=
| Hex_digit d : 0 <= d <= 9 -> hex_digit (chr "0" + d) d
| Hex_lower d : 10 <= d <= 15 -> hex_digit (chr "a" + (d - 10)) d
| Hex_upper d : 10 <= d <= 15 -> hex_digit (chr "A" + (d - 10)) d.
(** The text between the quotes, and the bytes it stands for.  A code over 255 stands for a
    question mark: the code keeps no other characters. *)
Inductive spells : bytes -> bytes -> Prop :=
| Spells_nil : spells [] []
| Spells_plain c x s : 32 <= c -> c <> 34 -> c <> 92 -> spells x s -> spells (c :: x) (c :: s)
| Spells_short e c x s : In (e, c) short_escapes -> spells x s -> spells (92 :: e :: x) (c :: s)
| Spells_code h0 h1 h2 h3 d0 d1 d2 d3 x s :
    hex_digit h0 d0 -> hex_digit h1 d1 -> hex_digit h2 d2 -> hex_digit h3 d3 -> spells x s ->
    spells (92 :: chr "u" :: h0 :: h1 :: h2 :: h3 :: x)
           ((let code := d0 * 16 ^ 3 + d1 * 16 ^ 2 + d2 * 16 + d3 in if code <=? 255 then code else chr "?") :: s).
Definition string_text (x s : bytes) : Prop := exists b, x = [34] ++ b ++ [34] /\ spells b s.

Definition digit_text (x : bytes) : Prop := x <> [] /\ Forall (fun c => 48 <= c <= 57) x.
Definition sign_text (x : bytes) : Prop := x = [] \/ x = lit "-" \/ x = lit "+".
Definition number_text (x : bytes) : Prop :=
  exists sg ip fp ep, x = sg ++ ip ++ fp ++ ep /\ sign_text sg /\ digit_text ip /\
    (fp = [] \/ exists f, fp = lit "." ++ f /\ digit_text f) /\
    (ep = [] \/ exists e sg' d, ep = e ++ sg' ++ d /\ (e = lit "e" \/ e = lit "E") /\ sign_text sg' /\ digit_text d).
Inductive json : bytes -> Prop :=
| J_string x s : string_text x s -> json x
| J_number x : number_text x -> json x
| J_true : json (lit "true")
| J_false : json (lit "false")
| J_null : json (lit "null")
| J_nothing w : white w -> json (lit "[" ++ w ++ lit "]")
| J_array x : elements x -> json (lit "[" ++ x ++ lit "]")
| J_empty w : white w -> json (lit "{" ++ w ++ lit "}")
| J_object x : pairs x -> json (lit "{" ++ x ++ lit "}")
with elements : bytes -> Prop :=
| E_one w v w' : white w -> json v -> white w' -> elements (w ++ v ++ w')
| E_more w v w' x : white w -> json v -> white w' -> elements x -> elements (w ++ v ++ w' ++ lit "," ++ x)
with pairs : bytes -> Prop :=
| P_one w1 k s w2 w3 v w4 : white w1 -> string_text k s -> white w2 -> white w3 -> json v -> white w4 ->
    pairs (w1 ++ k ++ w2 ++ lit ":" ++ w3 ++ v ++ w4)
| P_more w1 k s w2 w3 v w4 x : white w1 -> string_text k s -> white w2 -> white w3 -> json v -> white w4 -> pairs x ->
    pairs (w1 ++ k ++ w2 ++ lit ":" ++ w3 ++ v ++ w4 ++ lit "," ++ x).

(** ** Descriptions *)
(** The members of an object whose values are strings. *)
Inductive string_members : bytes -> list (bytes * bytes) -> Prop :=
| S_one w1 k s w2 w3 v t w4 : white w1 -> string_text k s -> white w2 -> white w3 -> string_text v t -> white w4 ->
    string_members (w1 ++ k ++ w2 ++ lit ":" ++ w3 ++ v ++ w4) [(s, t)]
| S_more w1 k s w2 w3 v t w4 x l : white w1 -> string_text k s -> white w2 -> white w3 -> string_text v t -> white w4 ->
    string_members x l -> string_members (w1 ++ k ++ w2 ++ lit ":" ++ w3 ++ v ++ w4 ++ lit "," ++ x) ((s, t) :: l).
Definition string_object (x : bytes) (l : list (bytes * bytes)) : Prop :=
  (l = [] /\ exists w, white w /\ x = lit "{" ++ w ++ lit "}") \/
  (exists b, x = lit "{" ++ b ++ lit "}" /\ string_members b l).
(** What one member of the description says. *)
Inductive said := Name (s : bytes) | Tag (s : bytes) | Parameters (l : list (bytes * bytes)) | Nothing.
Inductive member_text : bytes -> bytes -> said -> Prop :=
| M_name v s : string_text v s -> member_text (lit "name") v (Name s)
| M_tag v s : string_text v s -> member_text (lit "tag") v (Tag s)
| M_parameters v l : string_object v l -> member_text (lit "parameters") v (Parameters l)
| M_no_object v : json v -> (forall r, v <> lit "{" ++ r) -> member_text (lit "parameters") v Nothing
| M_other k v : k <> lit "name" -> k <> lit "tag" -> k <> lit "parameters" -> json v -> member_text k v Nothing.
Inductive member_list : bytes -> list said -> Prop :=
| ML_one w1 k s w2 w3 v m w4 : white w1 -> string_text k s -> white w2 -> white w3 -> member_text s v m -> white w4 ->
    member_list (w1 ++ k ++ w2 ++ lit ":" ++ w3 ++ v ++ w4) [m]
| ML_more w1 k s w2 w3 v m w4 x l : white w1 -> string_text k s -> white w2 -> white w3 -> member_text s v m -> white w4 ->
    member_list x l -> member_list (w1 ++ k ++ w2 ++ lit ":" ++ w3 ++ v ++ w4 ++ lit "," ++ x) (m :: l).
(** The last name and the last tag count, and of the parameters the last of each key. *)
Definition last_name (l : list said) : option bytes :=
  fold_left (fun o m => match m with Name s => Some s | _ => o end) l None.
Definition last_tag (l : list said) : bytes :=
  fold_left (fun o m => match m with Tag s => s | _ => o end) l [].
Definition all_parameters (l : list said) : list (bytes * bytes) :=
  flat_map (fun m => match m with Parameters ps => ps | _ => [] end) l.
Definition last_value (k : bytes) (l : list (bytes * bytes)) : option bytes :=
  fold_left (fun o '(k', v) => if eqb_bytes k' k then Some v else o) l None.
(** Text that describes: white space, an object, white space and NULs. *)
Definition describes (x : bytes) (l : list said) : Prop :=
  exists w b w' z, x = w ++ lit "{" ++ b ++ lit "}" ++ w' ++ z /\ white w /\ member_list b l /\ white w' /\ Forall (eq 0) z.
