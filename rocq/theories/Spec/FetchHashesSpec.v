(** * Vocabulary for the update of hash files *)

From Coq Require Import QArith_base.
From Verif Require Import Base.Py Base.Text Base.Fs Spec.FsSpec Spec.FilesSpec Model.Hashes.
Local Open Scope Z_scope.

(** ** The calendar *)

Record date := { yr : Z; mo : Z; da : Z }.
Definition leap (y : Z) : Prop := (4 | y) /\ (~ (100 | y) \/ (400 | y)).
Inductive month_len (y : Z) : Z -> Z -> Prop :=
| Len31 m : In m [1; 3; 5; 7; 8; 10; 12] -> month_len y m 31
| Len30 m : In m [4; 6; 9; 11] -> month_len y m 30
| Len29 : leap y -> month_len y 2 29
| Len28 : ~ leap y -> month_len y 2 28.
Definition valid (d : date) : Prop := 1 <= yr d <= 9999 /\ exists n, month_len (yr d) (mo d) n /\ 1 <= da d <= n.
(** The day after. *)
Inductive next : date -> date -> Prop :=
| NextDay y m d n : month_len y m n -> d < n -> next {| yr := y; mo := m; da := d |} {| yr := y; mo := m; da := d + 1 |}
| NextMonth y m n : month_len y m n -> m < 12 -> next {| yr := y; mo := m; da := n |} {| yr := y; mo := m + 1; da := 1 |}
| NextYear y : next {| yr := y; mo := 12; da := 31 |} {| yr := y + 1; mo := 1; da := 1 |}.
(** Number of days since 1970-01-01. *)
Inductive day_no : date -> Z -> Prop :=
| DayEpoch : day_no {| yr := 1970; mo := 1; da := 1 |} 0
| DayAfter d d' n : day_no d n -> valid d' -> next d d' -> day_no d' (n + 1)
| DayBefore d d' n : day_no d' n -> valid d -> next d d' -> day_no d (n - 1).
(** Seconds since 1970-01-01 00:00:00. *)
Definition instant (d : date) (hh mi ss t : Z) : Prop :=
  valid d /\ 0 <= hh <= 23 /\ 0 <= mi <= 59 /\ 0 <= ss <= 59 /\ exists n, day_no d n /\ t = n * 86400 + hh * 3600 + mi * 60 + ss.

(** The preferred format of dates in HTTP: "Sun, 06 Nov 1994 08:49:37 GMT". *)
Definition two (n : Z) : str := [Z.to_N (48 + n / 10); Z.to_N (48 + n mod 10)].
Definition four (n : Z) : str := two (n / 100) ++ two (n mod 100).
Definition weekday (w : str) : Prop := In w [lit "Mon"; lit "Tue"; lit "Wed"; lit "Thu"; lit "Fri"; lit "Sat"; lit "Sun"].
Definition month_name (m : Z) (s : str) : Prop :=
  In (m, s) [(1, lit "Jan"); (2, lit "Feb"); (3, lit "Mar"); (4, lit "Apr"); (5, lit "May"); (6, lit "Jun"); (7, lit "Jul"); (8, lit "Aug"); (9, lit "Sep"); (10, lit "Oct"); (11, lit "Nov"); (12, lit "Dec")].
Definition http_text (w : str) (d : date) (mon : str) (hh mi ss : Z) : str :=
  w ++ lit ", " ++ two (da d) ++ lit " " ++ mon ++ lit " " ++ four (yr d) ++ lit " " ++ two hh ++ lit ":" ++ two mi ++ lit ":" ++ two ss ++ lit " GMT".

(** ** The files *)

Definition hash_files : list str := [
  lit "hashes.binentries.txt"; lit "hashes.binfields.txt"; lit "hashes.binhashes.txt"; lit "hashes.bintypes.txt"; lit "hashes.game.txt";
  lit "hashes.lcu.txt"; lit "hashes.rst.txt"; lit "hashes.rst.xxh64.txt"; lit "hashes.rst.xxh3.txt" ].
Definition url_of (name : str) : str := lit "https://raw.communitydragon.org/data/hashes/lol/" ++ name.

Section Site.
  Variable stamp : str -> result Z.  (* meaning of a date *)
  Variable mtime : str -> Q.
  Variable head : str -> result str.
  (** An existing file does not need an update. *)
  Definition current (name : str) : Prop := exists h t, head (url_of name) = Ok h /\ stamp h = Ok t /\ (inject_Z t <= mtime name)%Q.
End Site.

(** ** The directory *)
Definition good_dir (dir : ppath) : Prop :=
  In (pp_root dir) [[]; lit "/"; lit "//"] /\ Forall valid_name (pp_parts dir) /\ (pp_root dir <> [] \/ pp_parts dir <> []).
Definition dir_place (cwd : path) (dir : ppath) : path := rev (pp_parts dir) ++ (match pp_root dir with [] => cwd | _ => [] end).
Definition place (cwd : path) (dir : ppath) (name : str) : path := name :: dir_place cwd dir.
(** Nothing on the way to the files is a symbolic link. *)
Definition usable (cwd : path) (dir : ppath) (f : fs) : Prop :=
  fs_wf f /\ look f cwd = Some NDir /\ forall n, In n hash_files -> nolink f (place cwd dir n).

(** A file after its update: it was there and did not need an update, or it has the content sent by the server. *)
Definition updated (stamp : str -> result Z) (mtime : str -> Q) (head : str -> result str) (get : str -> result bytes) (cwd : path) (dir : ppath) (f f' : fs) (n : str) : Prop :=
  (look f (place cwd dir n) <> None /\ current stamp mtime head n /\ look f' (place cwd dir n) = look f (place cwd dir n)) \/
  (exists b, get (url_of n) = Ok b /\ look f' (place cwd dir n) = Some (NFile b)).
