(** * Specification of the search of paths in files *)

From Coq Require Import Relations.
From Verif Require Import Base.Py Base.Text Model.Grep Spec.GuessPathsSpec.

(** The text of some bytes in lower case, when they are ASCII. *)
Definition is_text (b : bytes) (p : str) : Prop := Forall (fun x => b2n x < 128) b /\ p = map (fun x => lower1 (b2n x)) b.

(** ** Normal form of a path *)

(** Empty components and dots may be left out, [..] removes the name before it and nothing at the root. *)
Inductive step (abs : bool) : list str -> list str -> Prop :=
| st_dot a x b : x = [] \/ x = lit "." -> step abs (a ++ x :: b) (a ++ b)
| st_up a x b : x <> [] -> x <> lit "." -> x <> lit ".." -> step abs (a ++ x :: lit ".." :: b) (a ++ b)
| st_root b : abs = true -> step abs (lit ".." :: b) b.
Definition root_of (p root : str) : Prop :=
  root = [] /\ (forall r, p <> lit "/" ++ r) \/
  root = lit "//" /\ (exists r, p = lit "//" ++ r /\ forall r', r <> lit "/" ++ r') \/
  root = lit "/" /\ ((exists r, p = lit "/" ++ r /\ forall r', r <> lit "/" ++ r') \/ exists r, p = lit "///" ++ r).
Definition normal_form (p q : str) : Prop :=
  exists root names l, root_of p root /\ Forall (fun n => ~ In cSlash n) names /\ names <> [] /\ p = join (lit "/") names /\
    clos_refl_trans _ (step (negb (eqb root []))) names l /\ (forall l', ~ step (negb (eqb root [])) l l') /\
    (root ++ join (lit "/") l = [] /\ q = lit "." \/ root ++ join (lit "/") l <> [] /\ q = root ++ join (lit "/") l).

(** ** Property files *)

Definition bin_starts : list bytes :=
  [bl "ASSETS/"; bl "DATA/"; bl "Characters/"; bl "Shaders/"; bl "Maps/"; bl "Gameplay/"; bl "ClientStates/"; bl "Patching/"; bl "Loadouts/"].
(** The number in the two bytes before [b] in [a ++ b]; the bytes before the first one are the last ones. *)
Definition length_before (a b : bytes) (n : N) : Prop :=
  exists x y, n = b2n x + 256 * b2n y /\
    ((exists a', a = a' ++ [x; y]) \/ (a = [y] /\ exists b', b = b' ++ [x]) \/ (a = [] /\ exists b', b = b' ++ [x; y])).
Definition bin_string (data : bytes) (p : str) : Prop :=
  exists a s r n b c, data = a ++ s ++ r /\ In s bin_starts /\ length_before a (s ++ r) n /\ s ++ r = b ++ c /\ (lenN b = n \/ lenN b < n /\ c = []) /\ is_text b p.
Definition begins (s p : str) : Prop := exists r, p = s ++ r.
Definition ends (s p : str) : Prop := exists r, p = r ++ s.
Definition parent_of (p q : str) : Prop := (exists n, ~ In cSlash n /\ p = q ++ lit "/" ++ n) \/ (~ In cSlash p /\ q = p).
Inductive bin_path (p : str) : str -> Prop :=
| bp_character pre : begins (lit "characters") p -> pre = [] \/ pre = lit "assets/" \/ pre = lit "data/" -> bin_path p (pre ++ p)
| bp_lua x y : ~ begins (lit "characters") p -> p = x ++ lit ".lua" -> In y [lit ".lua"; lit ".luabin"; lit ".luabin64"; lit ".preload"] -> bin_path p (x ++ y)
| bp_shader y z : ~ ends (lit ".lua") p -> begins (lit "shaders") p -> In y [lit ".ps_2_0"; lit ".ps_3_0"; lit ".vs_2_0"; lit ".vs_3_0"; lit ".ps"; lit ".vs"] ->
    In z [[]; lit ".dx11"; lit ".dx9"; lit ".dx9sm3"; lit ".glsl"; lit ".metal"; lit "-dx11"; lit "-metal"] -> bin_path p (lit "assets/shaders/generated/" ++ p ++ y ++ z)
| bp_geometry y : ~ ends (lit ".lua") p -> begins (lit "maps/mapgeometry/") p -> y = lit ".mapgeo" \/ y = lit ".materials.bin" -> bin_path p (lit "data/" ++ p ++ y)
| bp_parents s q q' : ~ ends (lit ".lua") p -> ~ begins (lit "maps/mapgeometry/") p -> In s [lit "clientstates"; lit "patching"; lit "loadouts"; lit "maps"] -> begins s p ->
    parent_of p q -> parent_of q q' -> forall r, r = p \/ r = q \/ r = q' -> bin_path p r
| bp_other q : ~ ends (lit ".lua") p -> (forall s, In s [lit "characters"; lit "shaders"; lit "clientstates"; lit "patching"; lit "loadouts"; lit "maps"] -> ~ begins s p) ->
    q = p \/ (exists x, p = x ++ lit ".png" /\ q = x ++ lit ".dds") -> bin_path p q.

(** ** Quoted texts *)

(** The texts between [key] and a quote, from left to right. *)
Inductive quotes (key : bytes) : bytes -> list bytes -> Prop :=
| qu_nil : quotes key [] []
| qu_here v s vs : v <> [] -> ~ In x22 v -> quotes key s vs -> quotes key (key ++ v ++ x22 :: s) (v :: vs)
| qu_skip c s vs : (forall v r, v <> [] -> ~ In x22 v -> c :: s <> key ++ v ++ x22 :: r) -> quotes key s vs -> quotes key (c :: s) vs.

(** ** Other files *)

Definition file_starts : list bytes :=
  [bl "ASSETS/"; bl "Common/"; bl "DATA/"; bl "DATA_SOON/"; bl "DATA_Soon/"; bl "Gameplay/"; bl "Global/"; bl "LEVELS/"; bl "Loadouts/"; bl "UX/"; bl "UIAutoAtlas/"].
(** Digits, letters and the characters [_. /-]. *)
Definition path_char (b : byte) : Prop :=
  let c := b2n b in 48 <= c <= 57 \/ 65 <= c <= 90 \/ 97 <= c <= 122 \/ c = 95 \/ c = 46 \/ c = 32 \/ c = 47 \/ c = 45.
Definition file_start (s : bytes) : Prop := exists n c r, In n file_starts /\ path_char c /\ s = n ++ c :: r.
(** [m], between [a] and [b], goes from the first start of a sequence of such characters to its end. *)
Definition file_string (a m b : bytes) : Prop :=
  file_start m /\ Forall path_char m /\ (forall c r, b = c :: r -> ~ path_char c) /\
  forall a' x, a = a' ++ x -> x <> [] -> Forall path_char x -> ~ file_start (x ++ m).
(** The string up to its end, or of the length written before it when this is shorter. *)
Definition file_text (a m p : bytes) : Prop :=
  p = m \/ exists n p', m = p ++ p' /\ p' <> [] /\ lenN p = n /\
    ((exists a' x y, a = a' ++ [x; y] /\ n = b2n x + 256 * b2n y /\ (n <> 0 \/ lenN a' < 2)) \/
     (exists a' x y, a = a' ++ [x; y; x00; x00] /\ n = b2n x + 256 * b2n y)).
Definition file_path (data : bytes) (q : str) : Prop :=
  exists a m b p t, data = a ++ m ++ b /\ file_string a m b /\ file_text a m p /\ replaced (eq (lit "data_soon/")) (lit "data/") (map (fun x => lower1 (b2n x)) p) t /\
    (q = t \/ exists x y, t = x ++ lit ".lua" /\ In y [lit ".luabin"; lit ".luabin64"; lit ".preload"] /\ q = x ++ y).

(** ** Entries of an archive *)

Definition not_searched : list str :=
  [lit "dds"; lit "jpg"; lit "png"; lit "tga"; lit "ttf"; lit "otf"; lit "ogg"; lit "webm"; lit "anm"; lit "skl"; lit "skn"; lit "scb"; lit "sco"; lit "troybin"; lit "bnk"; lit "wpk"; lit "tex"].
(** The entry is not a link and is read. *)
Definition opened (e : entry) : Prop := en_type e <> 2 /\ (forall x, en_ext e = Some x -> ~ In x not_searched).
Definition named (e : entry) (w : str) : Prop := en_path e = Some w /\ w <> [].
Inductive preload_path (e : entry) (p : str) : str -> Prop :=
| pp_lua x y : p = x ++ lit ".lua" -> In y [lit ".lua"; lit ".luabin"; lit ".luabin64"] -> preload_path e p (x ++ y)
| pp_troy x : p = x ++ lit ".troy" -> preload_path e p (lit "data/shared/particles/" ++ x ++ lit ".troybin")
| pp_other w : ~ ends (lit ".lua") p -> ~ ends (lit ".troy") p -> named e w -> preload_path e p (dirname w ++ lit "/" ++ p ++ lit ".preload").
Definition shader_exts : list str := [lit "hls"; lit "ps_2_0"; lit "ps_3_0"; lit "vs_2_0"; lit "vs_3_0"].
Inductive entry_path (e : entry) (data : bytes) : str -> Prop :=
| ep_bin x p q : en_ext e = Some x -> x = lit "bin" \/ x = lit "inibin" -> bin_string data p -> bin_path p q -> entry_path e data q
| ep_preload vs v p q : en_ext e = Some (lit "preload") -> quotes (bl "Name=""") data vs -> In v vs -> is_text v p -> preload_path e p q -> entry_path e data q
| ep_shader x w vs v p n q : en_ext e = Some x -> In x shader_exts -> named e w -> quotes (bl "#include """) data vs -> In v vs -> is_text v p ->
    normal_form (dirname w ++ lit "/" ++ p) n -> replaced (eq [92]) (lit "/") n q -> entry_path e data q
| ep_atlas w lines l p : en_ext e = Some (lit "atlas") -> named e w -> Forall (fun l => ~ In x0a l) lines -> lines <> [] -> data = join [x0a] lines -> In l lines -> is_text l p ->
    entry_path e data (dirname w ++ lit "/" ++ p)
| ep_other q : (forall x, en_ext e = Some x -> ~ In x ([lit "bin"; lit "inibin"; lit "preload"; lit "atlas"] ++ shader_exts)) -> file_path data q -> entry_path e data q.
(** The path of a preload file is used in a format. *)
Definition plain_name (e : entry) : Prop := en_ext e = Some (lit "preload") -> forall w, en_path e = Some w -> ~ In 37 (dirname w).
(** Reading the entry, or one of its texts, fails. *)
Definition foreign (vs : list bytes) : Prop := exists v x, In v vs /\ In x v /\ 128 <= b2n x.
Definition entry_fails (e : entry) : Prop :=
  opened e /\ ((exists x, en_data e = Err x) \/
    exists data, en_data e = Ok (Some data) /\
      ((en_ext e = Some (lit "preload") /\ exists vs, quotes (bl "Name=""") data vs /\ foreign vs) \/
       (exists x w vs, en_ext e = Some x /\ In x shader_exts /\ named e w /\ quotes (bl "#include """) data vs /\ foreign vs))).
