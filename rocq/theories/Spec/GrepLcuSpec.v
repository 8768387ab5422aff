(** * Specification of the search of paths in the files of the client *)

From Verif Require Import Base.Py Base.Text Model.Hashes Model.Grep Model.Releases Spec.HashesSpec Spec.Utf8Spec.

(** ** Matches from left to right *)

(** The character before the rest of a text, after [t]. *)
Definition after (b : option N) (t : str) : option N := fold_left (fun _ c => Some c) t b.
(** [M b t v r]: [t], between the character [b] and the text [r], is a match with the groups [v].  Matches do not overlap, each one is the first. *)
Inductive found (M : option N -> str -> list str -> str -> Prop) : option N -> str -> list (list str) -> Prop :=
| fo_nil b : found M b [] []
| fo_here b t v r vs : M b t v r -> found M (after b t) r vs -> found M b (t ++ r) (v :: vs)
| fo_skip b c s vs : (forall t v r, M b t v r -> c :: s <> t ++ r) -> found M (Some c) s vs -> found M b (c :: s) vs.

Definition letter_or_digit (c : N) : Prop := 48 <= c <= 57 \/ 65 <= c <= 90 \/ 97 <= c <= 122.
Definition url_like (c : N) : Prop := letter_or_digit c \/ c = 47 \/ c = 95 \/ c = 46 \/ c = 64 \/ c = 45.
Definition path_like (c : N) : Prop := letter_or_digit c \/ c = 47 \/ c = 95 \/ c = 46 \/ c = 45.
(** [w] is not empty, and goes on as far as the characters satisfy [P]. *)
Definition longest_run (P : N -> Prop) (w r : str) : Prop := w <> [] /\ Forall P w /\ forall c r', r = c :: r' -> ~ P c.

Section Matches.
  Variable word : N -> bool.
  (** Letters and digits are characters of words. *)
  Definition word_ok : Prop := forall c, letter_or_digit c -> word c = true.
  (** Not in a word. *)
  Definition not_word (b : option N) : Prop := forall c, b = Some c -> word c = false.
  Definition not_word_next (r : str) : Prop := forall c r', r = c :: r' -> word c = false.

  (** [fe/plugin/path], not in a word *)
  Definition fe_match (b : option N) (t : str) (v : list str) (r : str) : Prop :=
    exists p q, v = [p; q] /\ t = lit "fe/" ++ p ++ lit "/" ++ q /\ not_word b /\ p <> [] /\ ~ In cSlash p /\ longest_run url_like q r.
  Definition data_match (b : option N) (t : str) (v : list str) (r : str) : Prop :=
    exists q, v = [q] /\ t = lit "/DATA/" ++ q /\ longest_run url_like q r.
  Definition assets_match (b : option N) (t : str) (v : list str) (r : str) : Prop :=
    exists q, v = [q] /\ t = lit "lol-game-data/assets/" ++ q /\ not_word b /\ longest_run url_like q r.
  (** A path starting with [./] or [../], not at the end of something that looks like a path *)
  Definition relative_match (b : option N) (t : str) (v : list str) (r : str) : Prop :=
    exists c d q, v = [d ++ q] /\ t = c :: d ++ q /\ ~ path_like c /\ c <> 92 /\ (d = lit "./" \/ d = lit "../") /\ longest_run path_like q r.
  (** A quoted name with an extension: the longest one *)
  Definition known_ext (e : str) : Prop :=
    In e [lit "js"; lit "json"; lit "webm"; lit "html"] \/ exists x y z, e = [x; y; z] /\ 97 <= x <= 122 /\ 97 <= y <= 122 /\ 97 <= z <= 122.
  Definition with_ext (p : str) : Prop := exists c x e, p = c :: x ++ lit "." ++ e /\ letter_or_digit c /\ Forall url_like x /\ known_ext e.
  Definition named_match (b : option N) (t : str) (v : list str) (r : str) : Prop :=
    exists c p, v = [p] /\ t = c :: p /\ (c = 34 \/ c = 39) /\ with_ext p /\ not_word_next r /\
      forall y r', r = y ++ r' -> y <> [] -> not_word_next r' -> ~ with_ext (p ++ y).
  (** The text after the last [-template-] of an identifier *)
  Definition template_match (b : option N) (t : str) (v : list str) (r : str) : Prop :=
    exists a p, v = [p] /\ t = lit "<template id=""" ++ a ++ lit "-template-" ++ p ++ [34] /\ ~ In 34 a /\ p <> [] /\ ~ In 34 p /\
      forall a' p', a ++ lit "-template-" ++ p = a' ++ lit "-template-" ++ p' -> p' <> [] -> (length a' <= length a)%nat.
  (** The first [.js.map] on the line *)
  Definition map_match (b : option N) (t : str) (v : list str) (r : str) : Prop :=
    exists x, v = [x ++ lit ".js"] /\ t = lit "sourceMappingURL=" ++ x ++ lit ".js.map" /\ ~ In cNL x /\
      forall x' r', x ++ lit ".js.map" ++ r = x' ++ lit ".js.map" ++ r' -> (length x <= length x')%nat.
  Definition splash_match (b : option N) (t : str) (v : list str) (r : str) : Prop :=
    exists q, v = [q] /\ t = lit "-splash-" ++ q /\ longest_run (fun c => c <> cDot) q r.
End Matches.

(** ** Files *)

Section Files.
  Variable word : N -> bool.
  Variable ulower : str -> str.
  Variable loads : str -> result (option json).
  Variable show : json -> str.

  Definition text_of (v : json) (s : str) : Prop := v = JStr s \/ (forall s', v <> JStr s') /\ s = show v.
  Definition base : str := lit "plugins/rcp-be-lol-game-data/global/default".

  (** A path in a text, and the text relative to any directory *)
  Inductive path_in (s : str) : str -> Prop :=
  | pi_fe vs p q : found (fe_match word) None s vs -> In [p; q] vs -> path_in s (ulower (lit "plugins/rcp-fe-" ++ p ++ lit "/global/default/" ++ q))
  | pi_data vs q : found data_match None s vs -> In [q] vs -> path_in s (ulower (base ++ lit "/data/" ++ q))
  | pi_assets vs q : found (assets_match word) None s vs -> In [q] vs -> path_in s (ulower (base ++ lit "/" ++ q)).
  Inductive name_in (s : str) : str -> Prop :=
  | ni_relative vs q : found relative_match None s vs -> In [q] vs -> name_in s (ulower q)
  | ni_named vs q : found (named_match word) None s vs -> In [q] vs -> name_in s (ulower q)
  | ni_template vs q : found template_match None s vs -> In [q] vs -> name_in s (ulower (q ++ lit "/template.html"))
  | ni_map vs q : found map_match None s vs -> In [q] vs -> name_in s (ulower q).

  (** [key in v] *)
  Inductive has (key : str) : json -> Prop :=
  | has_obj d x : In (key, x) d -> has key (JObj d)
  | has_arr l : In (JStr key) l -> has key (JArr l)
  | has_str a b : has key (JStr (a ++ key ++ b)).
  Definition container (v : json) : Prop := (exists d, v = JObj d) \/ (exists l, v = JArr l) \/ exists s, v = JStr s.
  (** [for x in v] *)
  Inductive items : json -> list json -> Prop :=
  | it_arr l : items (JArr l) l
  | it_obj d : items (JObj d) (map (fun kv => JStr (fst kv)) d)
  | it_str s : items (JStr s) (map (fun c => JStr [c]) s).
  (** The first value of a key *)
  Definition field (key : str) (v x : json) : Prop := exists a d, v = JObj (a ++ (key, x) :: d) /\ forall y, ~ In (key, y) a.

  (** What a JSON file is *)
  Inductive kind := KTrans | KPlugin | KSplash | KSummary | KItems | KOther.
  Definition trans_file : str := lit "plugins/rcp-fe-lol-loot/global/default/trans.json".
  Definition summary_file : str := lit "plugins/rcp-be-lol-game-data/global/default/v1/champion-summary.json".
  Definition plugin_like (v : json) : Prop := has (lit "pluginDependencies") v /\ has (lit "name") v.
  Definition splash_like (v : json) : Prop := has (lit "musicVolume") v /\ has (lit "files") v.
  Inductive kind_of (path : option str) (v : json) : kind -> Prop :=
  | ko_trans : path = Some trans_file -> kind_of path v KTrans
  | ko_plugin : path <> Some trans_file -> plugin_like v -> kind_of path v KPlugin
  | ko_splash : path <> Some trans_file -> container v -> ~ plugin_like v -> splash_like v -> kind_of path v KSplash
  | ko_summary : path = Some summary_file -> container v -> ~ plugin_like v -> ~ splash_like v -> kind_of path v KSummary
  | ko_items : path <> Some trans_file -> path <> Some summary_file -> ~ plugin_like v -> ~ splash_like v -> has (lit "recommendedItemDefaults") v -> kind_of path v KItems
  | ko_other : path <> Some trans_file -> path <> Some summary_file -> container v -> ~ plugin_like v -> ~ splash_like v -> ~ has (lit "recommendedItemDefaults") v -> kind_of path v KOther.
  (** The values of the files of a splash *)
  Definition splash_files (v : json) (paths : list str) : Prop := exists d, field (lit "files") v (JObj d) /\ map snd d = map JStr paths.
  Definition splash_name (paths : list str) (n : str) : Prop := exists p vs q, In p paths /\ found splash_match None p vs /\ In [q] vs /\ n = ulower q.
  (** The paths of a JSON file *)
  Inductive json_path (v : json) : kind -> str -> Prop :=
  | jp_trans l k s : items v l -> In k l -> text_of k s -> json_path v KTrans (base ++ lit "/v1/hextech-images/" ++ s ++ lit ".png")
  | jp_plugin x s f : field (lit "name") v x -> text_of x s ->
      In f [lit "index.html"; lit "init.js"; lit "init.js.map"; lit "bundle.js"; lit "trans.json"; lit "css/main.css"; lit "license.json"] ->
      json_path v KPlugin (lit "plugins/" ++ s ++ lit "/global/default/" ++ f)
  | jp_splash paths n f : splash_files v paths -> splash_name paths n -> f = lit "config.json" \/ (exists p, In p paths /\ f = ulower p) ->
      json_path v KSplash (lit "plugins/rcp-fe-lol-splash/global/default/splash-assets/" ++ n ++ lit "/" ++ f)
  | jp_summary l k x s q : items v l -> (forall y, In y l -> exists i, field (lit "id") y i) -> In k l -> field (lit "id") k x -> text_of x s ->
      q = base ++ lit "/v1/champions/" ++ s ++ lit ".json" \/ q = base ++ lit "/v1/champion-splashes/" ++ s ++ lit "/metadata.json" -> json_path v KSummary q
  | jp_items w l s : field (lit "recommendedItemDefaults") v w -> items w l -> In (JStr s) l -> json_path v KItems (base ++ ulower s).
  (** The file has the expected shape. *)
  Inductive json_ok (v : json) : kind -> Prop :=
  | jo_trans : container v -> json_ok v KTrans
  | jo_plugin x : field (lit "name") v x -> json_ok v KPlugin
  | jo_splash paths : splash_files v paths -> json_ok v KSplash
  | jo_summary l : items v l -> (forall y, In y l -> exists x, field (lit "id") y x) -> json_ok v KSummary
  | jo_items w l : field (lit "recommendedItemDefaults") v w -> items w l -> (forall y, In y l -> exists s, y = JStr s) -> json_ok v KItems
  | jo_other : json_ok v KOther.

  (** The decoded text of a file, without the mark of UTF-8 *)
  Definition not_text : list str := [lit "png"; lit "jpg"; lit "ttf"; lit "webm"; lit "ogg"; lit "dds"; lit "tga"].
  Definition readable (e : entry) : Prop := forall x, en_ext e = Some x -> ~ In x not_text.
  Definition has_text (e : entry) (s : str) : Prop :=
    readable e /\ s <> [] /\ Forall scalar s /\
    (en_data e = Ok (Some (xef :: xbb :: xbf :: utf8_enc s)) \/ en_data e = Ok (Some (utf8_enc s)) /\ hd_error s <> Some 65279).
  (** The value of a JSON file *)
  Definition json_of (e : entry) (s : str) (v : json) : Prop := en_ext e = Some (lit "json") /\ loads s = Ok (Some v) /\ v <> JNull.
  (** The text is searched for paths. *)
  Definition searched (e : entry) (s : str) : Prop := has_text e s /\ forall v k, json_of e s v -> kind_of (en_path e) v k -> k <> KTrans /\ k <> KSplash.
  Inductive lcu_path (e : entry) : str -> Prop :=
  | lp_json s v k q : has_text e s -> json_of e s v -> kind_of (en_path e) v k -> json_path v k q -> lcu_path e q
  | lp_text s q : searched e s -> path_in s q -> lcu_path e q.
  Definition lcu_name (e : entry) (q : str) : Prop := exists s, searched e s /\ name_in s q.
  (** Reading the file, or using its content, fails. *)
  Inductive lcu_fails (e : entry) : Prop :=
  | lf_read x : readable e -> en_data e = Err x -> x <> UnicodeDecodeError -> lcu_fails e
  | lf_link : readable e -> en_data e = Ok None -> lcu_fails e
  | lf_loads s x : has_text e s -> en_ext e = Some (lit "json") -> loads s = Err x -> lcu_fails e
  | lf_scalar s v : has_text e s -> json_of e s v -> ~ container v -> lcu_fails e
  | lf_json s v k : has_text e s -> json_of e s v -> kind_of (en_path e) v k -> ~ json_ok v k -> lcu_fails e.
End Files.

(** A word of a text: a longest run of characters that are not spaces. *)
Definition word_in (space : N -> bool) (text w : str) : Prop :=
  exists a b, text = a ++ w ++ b /\ w <> [] /\ Forall (fun c => space c = false) w /\
    (a = [] \/ exists a' c, a = a' ++ [c] /\ space c = true) /\ (b = [] \/ exists c b', b = c :: b' /\ space c = true).
