(** * C46: converters used to export patches *)

From Verif Require Import Base.Py Base.Text Base.PyFacts Model.Exporter Spec.TablesSpec Spec.HandledSpec Proofs.HandledProofs.

(** The converter of a path, among those of the export of a patch, depends on its extension and directories;
    the conditions are tried in order. *)
Theorem C46_kind p k : kind_of (get_converter raw_converters p) = k <-> kind_used p k.
Proof. split; [intros <-; apply kind_used_get | intros H; exact (kind_used_unique p _ _ (kind_used_get p) H)]. Qed.
Print Assumptions C46_kind.

(** Some paths, and what makes them fall in the next kinds *)
Example C46_kind_ex : map (fun p => kind_of (get_converter raw_converters p))
  [lit "game/a/b.dds"; lit "game/.dds"; lit "a.tex"; lit ".tex"; lit "game/x.cdtb"; lit "game/x.cdtb2"; lit "x.cdtb"; lit "game/assets/items/icons2d/autoatlas/largeicons/atlas_info.bin";
   lit "game/assets/items/icons2d/autoatlas/atlas_info.bin"; lit "plugins/x.bin"; lit "a.skn"; lit "game/data/menu/fontconfig_en_us.txt"; lit "game/en_us/data/menu/en_us/lol.stringtable";
   lit "game/xdata/menu/lol.stringtable"; lit "game/data/menu.txt"; lit "game/global/champions/championskins.info"; lit "x/game/global/champions/championskins.info"]
  = [KImage; KCopy; KTex; KTex; KAtlas; KCopy; KCopy; KAtlas; KBin; KCopy; KSkn; KRst; KRst; KCopy; KCopy; KSkinInfo; KCopy].
Proof. vm_compute. reflexivity. Qed.
(** Directories before "game/" are not looked at, and neither is a final newline. *)
Example C46_kind_inside_ex : kind_used (lit "plugins/rcp-be-lol-game-data/game/x.bin") KBin /\ kind_used (lit "game/x.bin" ++ [cNL]) KBin /\ kind_used (lit "game/x" ++ [cNL] ++ lit ".bin") KCopy.
Proof. repeat split; apply C46_kind; vm_compute; reflexivity. Qed.
