(** * C50: text translations *)

From Verif Require Import Base.Py Base.Text Base.Bin Base.Utf8 Base.PyFacts Base.BinFacts Model.Rst Model.Translations
  Spec.Utf8Spec Spec.DictSpec Spec.TablesSpec Spec.TranslationsSpec Proofs.TablesProofs Proofs.TranslationsProofs.

(** After a first line which is not an entry: every entry gives its key and value, the last one of a key wins.
    The last line has no entry if it is not ended. *)
Theorem C50_text : forall game first ls last, first_ok first -> Forall tline_ok ls -> other_ok last ->
  exists d, load_translations game (first ++ x0a :: tlines_bytes ls ++ last) = Ok (FromText d) /\ built_from (pairs_of ls) d.
Proof. intros game first ls last H1 H2 H3. exists (dict_of (pairs_of ls)). split; [apply load_text; assumption | apply built_dict_of]. Qed.
Print Assumptions C50_text.

(** A binary string table is read as such. *)
Theorem C50_binary : forall game rest, load_translations game (bl "RST" ++ rest) = rmap FromRst (prun (parse_rst game) (bl "RST" ++ rest)).
Proof. intros game rest. unfold load_translations. rewrite takeN_app_n by reflexivity. rewrite eqbR. reflexivity. Qed.
Print Assumptions C50_binary.

(** A line that starts as an entry and is not UTF-8, or has no equal sign, is rejected. *)
Theorem C50_rejects : forall game first ls bad rest e, first_ok first -> Forall tline_ok ls -> ~ In x0a bad ->
  ((forall s, Forall scalar s -> bl "tr """ ++ bad <> utf8_enc s) /\ e = UnicodeDecodeError
   \/ (exists s, Forall scalar s /\ bad = utf8_enc s /\ ~ In 61 s) /\ e = ValueError) ->
  load_translations game (first ++ x0a :: tlines_bytes ls ++ (bl "tr """ ++ bad) ++ x0a :: rest) = Err e.
Proof. exact load_bad. Qed.
Print Assumptions C50_rejects.

Local Ltac notin := vm_compute; intuition discriminate.
Local Ltac entry_ok := split; [repeat constructor; unfold scalar; lia|]; split; [repeat constructor; unfold scalar; lia|]; split; [notin|]; split; notin.
Local Lemma font_ok : first_ok (bl "[Font]").
Proof. split; [discriminate|]. split; [notin|]. split; [discriminate|]. split; [notin|]. intros r E. discriminate. Qed.

(** An entry on the first line is lost: three bytes have been read to recognize binary tables. *)
Theorem C50_first_refuted : exists k v rest, tline_ok (Entry k v) /\ rest = tlines_bytes [Entry k v]
  /\ load_translations 1502 rest = Ok (FromText []).
Proof. exists (lit "k"), (lit "v"), (tlines_bytes [Entry (lit "k") (lit "v")]). split; [entry_ok|]. vm_compute. auto. Qed.
Print Assumptions C50_first_refuted.
(** The last character is lost when the last line is not ended, and a quote is kept in lines ended by CR LF. *)
Theorem C50_eof_refuted : exists k v first, tline_ok (Entry k v) /\ first_ok first
  /\ load_translations 1502 (first ++ x0a :: tline_bytes (Entry k v)) = Ok (FromText [(k, lit "valu")]) /\ v = lit "value".
Proof.
  exists (lit "k"), (lit "value"), (bl "[Font]"). split; [entry_ok|]. split; [exact font_ok|]. vm_compute. auto.
Qed.
Print Assumptions C50_eof_refuted.
Theorem C50_crlf_refuted : exists k v first, tline_ok (Entry k v) /\ first_ok first
  /\ load_translations 1502 (first ++ x0a :: tline_bytes (Entry k v) ++ [x0d; x0a]) = Ok (FromText [(k, v ++ lit """")]).
Proof.
  exists (lit "k"), (lit "value"), (bl "[Font]"). split; [entry_ok|]. split; [exact font_ok|]. vm_compute. auto.
Qed.
Print Assumptions C50_crlf_refuted.
(** A key with an equal sign is cut. *)
Theorem C50_equal_refuted : exists k v first, ~ In cNL k /\ ~ In cNL v /\ first_ok first
  /\ load_translations 1502 (first ++ x0a :: tlines_bytes [Entry k v]) = Ok (FromText [([], lit " = ""v")]) /\ k = lit "a=b" /\ v = lit "v".
Proof.
  exists (lit "a=b"), (lit "v"), (bl "[Font]"). split; [notin|]. split; [notin|]. split; [exact font_ok|]. vm_compute. auto.
Qed.
Print Assumptions C50_equal_refuted.

(** A table with comments, an entry given twice, and a value with quotes and an equal sign. *)
Local Definition lines := [Other (bl "; comment"); Entry (lit "a") (lit "1"); Other []; Entry (lit "b") (lit "x = ""y"""); Entry (lit "a") (lit "2")].
Example C50_ex : load_translations 1502 (bl "[Font]" ++ x0a :: tlines_bytes lines) = Ok (FromText [(lit "a", lit "2"); (lit "b", lit "x = ""y""")]).
Proof. vm_compute. reflexivity. Qed.
Example C50_ok_ex : Forall tline_ok lines /\ first_ok (bl "[Font]").
Proof.
  split.
  - repeat (apply Forall_cons || apply Forall_nil); try (split; [notin | discriminate]); entry_ok.
  - exact font_ok.
Qed.
Example C50_rejects_ex : load_translations 1502 (bl "[Font]" ++ x0a :: tlines_bytes lines ++ (bl "tr """ ++ bl "a""") ++ [x0a]) = Err ValueError.
Proof. vm_compute. reflexivity. Qed.
