(** * C26: files selected to be exported *)

From Verif Require Import Base.Py Base.Text Base.PyFacts Model.Version Model.Wad Model.Exporter Spec.ExporterSpec Proofs.ExporterProofs
  Spec.HandledSpec Spec.SelectionSpec Proofs.SelectionProofs Base.TextFacts.

(** Plain files are kept apart from executables and "description.json" files.  The entries of archives are
    kept in order and unchanged but for their paths (unknown ones get one, files of the game are moved to
    a directory), apart from executables and the files of the game that are of no use.  Archives without
    such entries are removed. *)
Theorem C26_selection cs v e e' : dicts e -> patch_like v -> transform cs v e = Ok e' ->
  (forall p s, In (p, s) (ex_plain e') <-> In (p, s) (ex_plain e) /\ p <> [] /\ ~ executable p /\ ~ ends_with p (lit "/description.json")) /\
  (forall k w', In (k, w') (ex_wads e') <-> exists w, In (k, w) (ex_wads e) /\ ew_src w' = ew_src w /\ ew_toc w' = ew_toc w /\
     chosen_from (selected cs v k) (ew_files w) (ew_files w') /\ ew_files w' <> []).
Proof.
  intros [HN _] Hv E. destruct (transform_ok cs v e e' HN E) as (Ep & _ & Hw). split.
  - intros p s. rewrite Ep, !filter_In. cbn [fst]. rewrite not_exec_iff, negb_true_iff. unfold ends_with. rewrite <- endswith_iff. destruct (endswith p (lit "/description.json")); intuition congruence.
  - intros k w'. rewrite Hw. split.
    + intros (w & Hi & -> & Hne). exists w. split; [exact Hi|]. split; [reflexivity|]. split; [reflexivity|]. split; [apply files_iff; [exact Hv | reflexivity] | exact Hne].
    + intros (w & Hi & Hs & Ht & Hf & Hne). exists w. split; [exact Hi|]. split; [|exact Hne]. apply files_iff in Hf; [|exact Hv]. destruct w' as [a b c]. cbn [ew_src ew_toc ew_files] in Hs, Ht, Hf. unfold with_files. congruence.
Qed.
Print Assumptions C26_selection.
(** The selection never fails. *)
Theorem C26_selection_succeeds cs v e : patch_like v -> exists e', transform cs v e = Ok e'.
Proof. intros Hv. apply transform_total, Hv. Qed.
Print Assumptions C26_selection_succeeds.

Local Definition named_ (h : N) (p : String.string) : wfile := set_path (mk_header h 0 0 0 0 false None (Some 1)) (Some (lit p)).
Arguments named_ h p%string_scope.
Local Definition wad_ (l : list wfile) : ewad := {| ew_src := lit "src"; ew_files := l; ew_toc := None |}.
Local Definition e0 : exporter :=
  {| ex_plain := [(lit "a.exe", lit "1"); (lit "plugins/p/description.json", lit "2"); (lit "description.json", lit "3"); (lit "b.DLL", lit "4")];
     ex_wads := [(lit "Plugins/rcp-be-X/default-assets2.wad", wad_ [mk_header 17 0 0 0 0 false None (Some 2); set_ext (mk_header 18 0 0 0 0 false None (Some 2)) (Some (lit "exe")); named_ 3 "x.bin"]);
                 (lit "plugins/rcp-/assets.wad", wad_ [mk_header 19 0 0 0 0 false None (Some 2)]);
                 (lit "data/final/map11.en_US.wad.client", wad_ [named_ 1 "a/b.dds"; named_ 2 "data/x_skins_y.bin"; named_ 3 "data/x.bin"; named_ 4 "x.luaobj"; named_ 5 "f.otf"; named_ 6 "m.dll"]);
                 (lit "data/final/shaders.wad.client", wad_ [named_ 7 "x.dx9"])] |}.
Local Definition shown (v : String.string) : option (list str * list (str * list str)) :=
  match patch_version (ArgStr (lit v)) with
  | Ok v => match transform raw_converters v e0 with
            | Ok e => Some (map fst (ex_plain e), map (fun kw => (fst kw, map (fun f => path_text (w_path f)) (ew_files (snd kw)))) (ex_wads e))
            | Err _ => None
            end
  | Err _ => None
  end.
Arguments shown v%string_scope.
Local Definition common : list (str * list str) :=
  [(lit "Plugins/rcp-be-X/default-assets2.wad", [lit "plugins/rcp-be-x/unknown/0000000000000011"; lit "x.bin"]); (lit "plugins/rcp-/assets.wad", [lit "unknown/0000000000000013"])].
Example C26_selection_ex : dicts e0 /\
  shown "14.4" = Some ([lit "description.json"; lit "b.DLL"], common ++ [(lit "data/final/map11.en_US.wad.client", [lit "game/en_us/a/b.dds"; lit "game/en_us/data/x.bin"; lit "game/en_us/f.otf"])]) /\
  shown "main" = shown "14.4" /\
  shown "14.3" = Some ([lit "description.json"; lit "b.DLL"], common ++ [(lit "data/final/map11.en_US.wad.client", [lit "game/a/b.dds"; lit "game/data/x.bin"; lit "game/f.otf"])]).
Proof. split; [split; vm_compute; repeat constructor; vm_compute; intuition discriminate|]. repeat split; vm_compute; reflexivity. Qed.
