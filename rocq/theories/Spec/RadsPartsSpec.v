(** * Specification of the solutions and projects of a RADS storage *)

From Verif Require Import Base.Py Base.Lines Base.Fs Model.Version Model.RadsParts Spec.VersionSpec Spec.ComponentSpec.

(** What is needed of [\w]. *)
Record word_class (word : N -> bool) : Prop := {
  wc_letters : forall c, 48 <= c <= 57 \/ 65 <= c <= 90 \/ 97 <= c <= 122 \/ c = 95 -> word c = true;
  wc_colon : word 58 = false; wc_equal : word 61 = false; wc_newline : word 10 = false }.

(** Numbers separated by dots. *)
Fixpoint dots (ns : list str) : str :=
  match ns with [] => [] | [n] => n | n :: t => n ++ 46 :: dots t end.
Definition numbers_text (ns : list str) (v : str) : Prop := ns <> [] /\ Forall number ns /\ v = dots ns.
(** The value of a number in base ten. *)
Fixpoint value_from (acc : Z) (d : str) : Z :=
  match d with [] => acc | c :: t => value_from (acc * 10 + (Z.of_N c - 48)) t end.
Definition value : str -> Z := value_from 0.

(** A component: an optional type, a name, an optional version, and possibly one final newline. *)
Definition version_ok (v : str) : Prop := v = [] \/ v = lit "main" \/ exists ns, numbers_text ns v.
Definition rads_text (word : N -> bool) (typ : option N) (name : str) (ver : option str) (c : str) : Prop :=
  (typ = None \/ typ = Some 115 \/ typ = Some 112) /\
  name <> [] /\ Forall (fun x => word x = true) name /\
  (forall v, ver = Some v -> version_ok v) /\
  exists newline, (newline = [] \/ newline = [10]) /\
    c = match typ with Some t => [t; 58] | None => [] end ++ name ++ match ver with Some v => 61 :: v | None => [] end ++ newline.

(** What a component names. *)
Inductive part_kind := KProject | KSolution | KPatch.
Inductive kind_of : option N -> str -> part_kind -> Prop :=
| ko_s name : kind_of (Some 115) name KSolution
| ko_p name : kind_of (Some 112) name KProject
| ko_patch : kind_of None (lit "patch") KPatch
| ko_sln n : kind_of None (n ++ lit "_sln") KSolution
| ko_other name : name <> lit "patch" -> (forall n, name <> n ++ lit "_sln") -> kind_of None name KProject.

(** The numbers of a version. *)
Definition nums (v : version) : list Z := match v_t v with VNum t => t | VMain => [] end.
Definition four_numbers (v : version) : Prop := exists a b c d, v_t v = VNum [a; b; c; d].

(** The versions in the text of a listing, in order. *)
Definition listed (t : str) (vs : list version) : Prop := Forall2 (fun s v => rads_version (ArgStr s) = Ok v) (splitlines t) vs.
(** The first of the newest versions. *)
Definition first_newest (vs : list version) (v : version) : Prop :=
  exists pre post, vs = pre ++ v :: post /\
    (forall w, In w pre -> comps_before (nums w) (nums v)) /\ (forall w, In w post -> ~ comps_before (nums v) (nums w)).

(** The order of texts, by characters. *)
Inductive text_before : str -> str -> Prop :=
| tb_ext x y0 y : text_before x (x ++ y0 :: y)
| tb_diff p a b x y : a < b -> text_before (p ++ a :: x) (p ++ b :: y).

(** The order of versions of solutions or projects: by name, then newest first. *)
Definition part_before (a b : part_version) : Prop :=
  text_before (fst a) (fst b) \/ fst a = fst b /\ comps_before (nums (snd b)) (nums (snd a)).

(** [s] is the path of a directory. *)
Definition directory (cwd : path) (f : fs) (s : str) : Prop := exists p, locate cwd f true s = Ok p /\ look f p = Some NDir.
