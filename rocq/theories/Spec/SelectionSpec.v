(** * Specification of the files selected to be exported *)

From Verif Require Import Base.Py Base.Text Model.Version Model.Wad Model.Exporter Spec.VersionSpec Spec.HandledSpec.

Definition ends_with (p s : str) : Prop := exists r, p = r ++ s.
Definition executable (p : str) : Prop := ends_with p (lit ".exe") \/ ends_with p (lit ".dll").
Definition digits (s : str) : Prop := forall c, In c s -> is_digit c = true.

(** The archive [k] holds the assets of a plugin whose files are in [dir]: it is in a directory named
    "plugins/rcp-…" and named "…assets.wad", possibly with a number.  Case does not matter. *)
Definition plugin_archive (k dir : str) : Prop :=
  exists a name base x n, k = (a ++ name) ++ cSlash :: base /\ ~ In cSlash base /\
    lower a = lit "plugins/rcp-" /\ name <> [] /\ one_line name /\
    ends (lower base) (x ++ lit "assets" ++ n ++ lit ".wad") /\ digits n /\ dir = lower (a ++ name).
(** The directory of the files of unknown name of an archive *)
Definition unknown_place (k d : str) : Prop :=
  (exists dir, plugin_archive k dir /\ d = dir ++ lit "/unknown") \/ (forall dir, ~ plugin_archive k dir) /\ d = lit "unknown".

(** The path of an entry of the archive [k]: its own, or else one made from its hash and extension *)
Definition entry_path (k : str) (f : wfile) (p : str) : Prop :=
  (w_path f = Some p /\ p <> []) \/
  ((w_path f = None \/ w_path f = Some []) /\ exists d, unknown_place k d /\
    p = d ++ lit "/" ++ hexl 16 (w_hash f) ++ match w_ext f with Some (c :: e) => lit "." ++ c :: e | _ => [] end).

(** Versions for which the files of languages are apart *)
Definition recent (v : version) : Prop := v_s v = lit "main" \/ exists t, v_t v = VNum t /\ (comps_before [14; 4]%Z t \/ t = [14; 4]%Z).
(** Archives of a language, such as "….en_us.wad.client" *)
Definition lang_archive (k l : str) : Prop :=
  exists a x1 x2 x3 x4, l = [x1; x2; cUnder; x3; x4] /\ one_line l /\ k = a ++ lit "." ++ l ++ lit ".wad.client".
Definition game_archive (k : str) : Prop := ends_with k (lit ".wad.client").
(** The directory of the files of a game archive *)
Definition game_dir (v : version) (k d : str) : Prop :=
  (exists l, recent v /\ lang_archive k l /\ d = lit "game/" ++ lower l) \/ (~ (recent v /\ exists l, lang_archive k l) /\ d = lit "game").

(** A file of the game is kept when its conversion gives a BIN file without "_skins_" in its path, or
    no BIN file and at least one with one of these extensions. *)
Definition kept_ext (q : str) : Prop :=
  exists x, In x [lit ".png"; lit ".skn"; lit ".txt"; lit ".stringtable"; lit ".json"; lit ".ttf"; lit ".otf"] /\ has_ext q x.
Definition kept (cs : list conv) (p : str) : Prop :=
  let produced := converted_paths (get_converter cs p) p in
  (exists l1 q l2, produced = l1 ++ q :: l2 /\ (forall x, In x l1 -> ~ has_ext x (lit ".bin")) /\ has_ext q (lit ".bin") /\ ~ exists a b, q = a ++ lit "_skins_" ++ b) \/
  ((forall x, In x produced -> ~ has_ext x (lit ".bin")) /\ exists q, In q produced /\ kept_ext q).

(** The entry [f] of the archive [k] is exported as [g]: only its path may change. *)
Definition selected (cs : list conv) (v : version) (k : str) (f g : wfile) : Prop :=
  exists p, entry_path k f p /\ ~ executable p /\
    ((~ game_archive k /\ g = set_path f (Some p)) \/
     (game_archive k /\ exists d, game_dir v k d /\ kept cs (d ++ lit "/" ++ p) /\ g = set_path f (Some (d ++ lit "/" ++ p)))).
(** Elements that are related to one are replaced by it, others are removed. *)
Inductive chosen_from {A} (R : A -> A -> Prop) : list A -> list A -> Prop :=
| CF_nil : chosen_from R [] []
| CF_yes x y l r : R x y -> chosen_from R l r -> chosen_from R (x :: l) (y :: r)
| CF_no x l r : (forall y, ~ R x y) -> chosen_from R l r -> chosen_from R (x :: l) r.
(** "main" or a number, as all versions of patches *)
Definition patch_like (v : version) : Prop := v_s v = lit "main" \/ exists t, v_t v = VNum t.
