(** * C10, C11: component strings and storage configuration *)

From Verif Require Import Base.TextFacts Model.Version Model.Storage Model.Component Spec.ComponentSpec Proofs.ComponentProofs.

(** C10: the accepted texts and the parsed name and version. *)
Theorem C10_language c name v : match_component c = Some (name, v) <-> component_text name v c.
Proof. exact (match_component_iff c name v). Qed.
Print Assumptions C10_language.
Example C10_language_ex : component_text (lit "game") (lit "9.1.") (lit "game=9.1.").
Proof. apply match_component_iff. reflexivity. Qed.

(** C10: everything else is rejected. *)
Theorem C10_rejects listing c :
  (forall name v, ~ component_text name v c) -> parse_component listing c = Err ValueError.
Proof. exact (parse_component_reject listing c). Qed.
Print Assumptions C10_rejects.
Example C10_rejects_ex : forall name v, ~ component_text name v (lit "patch=9.").
Proof. intros name v H. apply match_component_iff in H. discriminate. Qed.

(** C10: what is looked up. *)
Theorem C10_meaning listing name v c :
  component_text name v c ->
  let wanted := match v with [] => None | _ => Some (if eqb (last v 0) 46 then removelast v else v) end in
  let latest := match v with [] => true | _ => eqb (last v 0) 46 end in
  parse_component listing c =
  if eqb name (lit "patch") then
    match storage_patch wanted (listing false) with
    | Ok (Some p) => rmap (fun p => CPatch (Some p)) (if latest then patch_latest p else Ok p)
    | Ok None => Ok (CPatch None)
    | Err e => Err e
    end
  else Ok (CElement (patch_element name wanted (listing (match wanted with Some _ => true | None => false end)))).
Proof. exact (parse_component_meaning listing name v c). Qed.
Print Assumptions C10_meaning.

(** C10: the documented format "dotted number" is not exactly what is accepted: doubled dots and a
    final newline pass. *)
Theorem C10_strict_dotted_refuted :
  exists c v, match_component c = Some (lit "patch", v) /\ In [] (split_ch cDot (removelast v)).
Proof. exists (lit "patch=9.1..2"), (lit "9.1..2"). split; [reflexivity|]. cbn. auto. Qed.
Print Assumptions C10_strict_dotted_refuted.

(** C11: a returned configuration has a type and a path. *)
Theorem C11_type_and_path isdir isfile load_json path c :
  storage_conf_from_path isdir isfile load_json path = Ok c ->
  (exists t, dget (lit "type") c = Some t) /\ (exists p, dget (lit "path") c = Some p).
Proof. exact (conf_has_type_and_path isdir isfile load_json path c). Qed.
Print Assumptions C11_type_and_path.

(** C11: precedence. *)
Theorem C11_precedence isdir isfile load_json path :
  let r := storage_conf_from_path isdir isfile load_json path in
  let conf_path := path_join path (lit "cdtb.storage.conf") in
  (isdir path = true -> isfile conf_path = true -> r = load_storage_conf load_json conf_path) /\
  (isdir path = true -> isfile conf_path = false -> isdir (path_join path (lit "channels")) = true ->
     r = Ok [(lit "type", lit "patcher"); (lit "path", path)]) /\
  (isdir path = true -> isfile conf_path = false -> isdir (path_join path (lit "channels")) = false -> r = Err ValueError) /\
  (isdir path = false -> isfile path = true -> r = load_storage_conf load_json path) /\
  (isdir path = false -> isfile path = false -> forall t p, path = t ++ 58 :: p -> ~ In 58 t ->
     r = Ok [(lit "type", t); (lit "path", p)]) /\
  (isdir path = false -> isfile path = false -> ~ In 58 path ->
     r = Ok [(lit "type", lit "patcher"); (lit "path", path)]).
Proof. exact (conf_precedence isdir isfile load_json path). Qed.
Print Assumptions C11_precedence.
Example C11_ex :
  storage_conf_from_path (fun _ => false) (fun _ => false) (fun _ => Err (OSError ENOENT)) (lit "rads:/data/x") =
  Ok [(lit "type", lit "rads"); (lit "path", lit "/data/x")].
Proof. reflexivity. Qed.

(** C11: a loaded configuration keeps its entries; its path is relative to the configuration file. *)
Theorem C11_loaded load_json path c c' :
  load_json path = Ok c -> load_storage_conf load_json path = Ok c' ->
  (forall k, k <> lit "path" -> dget k c' = dget k c) /\
  dget (lit "path") c' = Some (normpath (path_join (dirname path) (match dget (lit "path") c with Some p => p | None => lit "." end))).
Proof. exact (load_conf_spec load_json path c c'). Qed.
Print Assumptions C11_loaded.
Example C11_loaded_ex :
  load_storage_conf (fun _ => Ok [(lit "type", lit "patcher"); (lit "path", lit "../x")]) (lit "/a/b/cdtb.storage.conf") =
  Ok [(lit "type", lit "patcher"); (lit "path", lit "/a/x")].
Proof. reflexivity. Qed.
