(** * C04: streaming reads *)

From Verif Require Import Base.PyFacts Model.Stream Spec.StreamSpec Proofs.StreamProofs.

(** C04: each operation delivers the requested byte range of the whole body, for every chunking;
    exceptions occur exactly when reading past the end or seeking backwards. *)
Theorem C04_delivers_ranges chunks ops :
  Forall sop_ok ops ->
  exists wss s' e, run_sops ops (stream_open chunks) = (wss, s', e) /\
    (map (@concat byte) wss, e) = body_run (concat chunks) 0 ops.
Proof. exact (run_sops_body chunks ops). Qed.
Print Assumptions C04_delivers_ranges.
Example C04_delivers_ranges_ex :
  let chunks := [bl "abc"; []; bl "defg"; bl "h"] in
  let ops := [OSkip 1; OCopy 4; OSkipTo 6; OCopy 2]%Z in
  Forall sop_ok ops /\ body_run (concat chunks) 0 ops = ([[]; bl "bcde"; []; bl "gh"], None) /\
  let '(wss, _, e) := run_sops ops (stream_open chunks) in
  wss = [[]; [bl "bc"; bl "de"]; []; [bl "g"; bl "h"]] /\ e = None.
Proof. split; [repeat constructor; cbn; lia | split; [reflexivity|vm_compute; split; reflexivity]]. Qed.

(** C04: the chunking is not observable. *)
Theorem C04_chunking_independent chunks1 chunks2 ops :
  Forall sop_ok ops -> concat chunks1 = concat chunks2 ->
  let '(wss1, _, e1) := run_sops ops (stream_open chunks1) in
  let '(wss2, _, e2) := run_sops ops (stream_open chunks2) in
  map (@concat byte) wss1 = map (@concat byte) wss2 /\ e1 = e2.
Proof. exact (run_sops_chunking chunks1 chunks2 ops). Qed.
Print Assumptions C04_chunking_independent.
Example C04_chunking_ex : concat [bl "ab"; bl "c"] = concat [[]; bl "abc"] /\ Forall sop_ok [OCopy 2; OCopy 1]%Z.
Proof. split; [reflexivity | repeat constructor; cbn; lia]. Qed.

(** C04: the position after a successful run, and what remains to be read. *)
Theorem C04_position ops s wss s' :
  Forall sop_ok ops -> run_sops ops s = (wss, s', None) -> (0 <= st_pos s)%Z ->
  forall body, rest_of s = dropN (Z.to_N (st_pos s)) body -> (st_pos s <= Z.of_N (lenN body))%Z ->
  st_pos s' = fold_left (fun p o => match o with OCopy n | OSkip n => (p + n)%Z | OSkipTo q => q end) ops (st_pos s) /\
  rest_of s' = dropN (Z.to_N (st_pos s')) body.
Proof. exact (run_sops_pos ops s wss s'). Qed.
Print Assumptions C04_position.
