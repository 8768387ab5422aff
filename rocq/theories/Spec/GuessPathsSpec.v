(** * Specification of the guessing of paths from parts of others *)

From Verif Require Import Base.Py Base.Text Spec.GuessSpec Spec.HashesSpec.

(** [plugins/x/s] *)
Definition plugin_path (x s p : str) : Prop := part x /\ p = lit "plugins/" ++ x ++ lit "/" ++ s.
(** [plugins/x/region/lang/rest] *)
Definition localized (x r l rest p : str) : Prop := part r /\ part l /\ plugin_path x (r ++ lit "/" ++ l ++ lit "/" ++ rest) p.

(** [pre.suffix.ext], or [pre.ext]; [suf] includes its dot, and is empty in the latter case. *)
Definition no_dots (s : str) : Prop := s <> [] /\ ~ In cDot s.
Definition suffixed (pre suf ext p : str) : Prop :=
  p = pre ++ suf ++ ext /\ ~ In cNL pre /\ (exists e, ext = cDot :: e /\ no_dots e) /\
  ((suf = [] /\ ~ exists b s, pre = b ++ cDot :: s /\ no_dots s) \/ exists s, suf = cDot :: s /\ no_dots s).

(** All occurrences of some texts replaced, from left to right. *)
Inductive replaced (old : str -> Prop) (new : str) : str -> str -> Prop :=
| rep_nil : replaced old new [] []
| rep_here o s t : old o -> replaced old new s t -> replaced old new (o ++ s) (new ++ t)
| rep_char c s t : (forall o r, old o -> c :: s <> o ++ r) -> replaced old new s t -> replaced old new (c :: s) (c :: t).

(** The extension of a file, with its dot: not of a name that starts with it. *)
Definition extension (p x e : str) : Prop :=
  p = x ++ cDot :: e /\ ~ In cDot e /\ ~ In cSlash e /\ exists a c b, x = a ++ c :: b /\ c <> cDot /\ c <> cSlash /\ ~ In cSlash b.

(** The last name of a path. *)
Definition last_name (p b : str) : Prop := ~ In cSlash b /\ (p = b \/ exists a, p = a ++ cSlash :: b).
(** The directory of a character. *)
Definition character_dir (p c : str) : Prop := part c /\ exists r, p = lit "assets/characters/" ++ c ++ lit "/" ++ r \/ p = lit "data/characters/" ++ c ++ lit "/" ++ r.
(** Files of the client which are also in the game. *)
Definition client_asset (p x ext : str) : Prop :=
  ~ In cNL x /\ (exists r, x = lit "assets/" ++ r \/ x = lit "data/" ++ r) /\ In ext [lit "png"; lit "jpg"; lit "json"] /\
  exists nl, (nl = [] \/ nl = [cNL]) /\ p = lit "plugins/rcp-be-lol-game-data/global/default/" ++ x ++ lit "." ++ ext ++ nl.
