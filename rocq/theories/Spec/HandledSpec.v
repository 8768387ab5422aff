(** * Specification of the converters used to export patches *)

From Verif Require Import Base.Py Base.Text Model.Exporter Spec.TablesSpec.

Inductive kind := KImage | KTex | KAtlas | KBin | KSkn | KRst | KSkinInfo | KCopy.
(** In the order in which they are tried. *)
Definition kinds : list kind := [KImage; KTex; KAtlas; KBin; KSkn; KRst; KSkinInfo; KCopy].

Definition kind_of (c : conv) : kind :=
  match c with
  | ImageConv _ => KImage | TexConv => KTex | AtlasConv _ => KAtlas | BinConv _ => KBin
  | SknConv => KSkn | RstConv _ => KRst | SkinInfoConv => KSkinInfo | CopyConv => KCopy
  end.

(** A final newline is ignored. *)
Definition ends (p q : str) : Prop := p = q \/ p = q ++ [cNL].
Definition one_line (s : str) : Prop := ~ In cNL s.
Definition has_ext (p ext : str) : Prop := exists s, p = s ++ ext /\ has_name s.
(** [a] then [b] on a same line, somewhere in the path, up to its end *)
Definition between (p a b : str) : Prop := exists x m, ends p (x ++ a ++ m ++ b) /\ one_line m.

(** The paths that a converter can convert *)
Definition kind_path (k : kind) (p : str) : Prop :=
  match k with
  | KImage => has_ext p (lit ".dds") \/ has_ext p (lit ".tga")
  | KTex => exists s, p = s ++ lit ".tex"
  | KAtlas => between p (lit "game/") (lit ".cdtb") \/ between p (lit "game/assets/items/icons2d/autoatlas/") (lit "/atlas_info.bin")
  | KBin => between p (lit "game/") (lit ".bin")
  | KSkn => exists s, p = s ++ lit ".skn"
  | KRst => exists ext, (ext = lit ".txt" \/ ext = lit ".stringtable") /\
      (between p (lit "game/data/menu/") ext \/
       exists x m n, ends p (x ++ lit "game/" ++ m ++ lit "/data/menu/" ++ n ++ ext) /\ one_line m /\ one_line n)
  | KSkinInfo => p = lit "game/global/champions/championskins.info"
  | KCopy => True
  end.
(** The first kind of converters that can convert a path *)
Definition kind_used (p : str) (k : kind) : Prop :=
  exists before after, kinds = before ++ k :: after /\ kind_path k p /\ forall x, In x before -> ~ kind_path x p.
