(** * Specification of the guessing of the files of characters and shaders *)

From Verif Require Import Base.Py Base.Text Spec.GuessSpec Spec.StorageSpec.

(** A path of the character [c]. *)
Definition of_character (p c : str) : Prop :=
  (c <> [] /\ ~ In cSlash c /\ ~ In cDot c) /\ exists pre, In pre [lit "assets/"; lit "data/"; []] /\ (p = pre ++ lit "characters/" ++ c \/ exists r, p = pre ++ lit "characters/" ++ c ++ lit "/" ++ r).

(** The first [/characters/c/skins/k/] of a path. *)
Definition skin (k : str) : Prop := k = lit "base" \/ exists d, d <> [] /\ Forall digit d /\ k = lit "skin" ++ d.
Definition skin_at (a c k b p : str) : Prop := part c /\ skin k /\ p = a ++ lit "/characters/" ++ c ++ lit "/skins/" ++ k ++ lit "/" ++ b.
Definition first_skin (p c k : str) : Prop :=
  exists a b, skin_at a c k b p /\ forall a' c' k' b', skin_at a' c' k' b' p -> (length a <= length a')%nat.
(** [q] is [p] with its names of skins, from left to right and with all their digits, replaced by [ks]. *)
Inductive filled : str -> str -> list str -> Prop :=
| fi_nil : filled [] [] []
| fi_here k k' s t ks : skin k -> k = lit "base" \/ (forall c r, s = c :: r -> ~ digit c) -> filled s t ks -> filled (k ++ s) (k' ++ t) (k' :: ks)
| fi_char c s t ks : (forall k r, skin k -> c :: s <> k ++ r) -> filled s t ks -> filled (c :: s) (c :: t) ks.

(** The number written by some digits. *)
Definition number (d : str) : N := fold_left (fun n c => 10 * n + (c - 48)) d 0.
Definition numbered_skin (p c : str) (n : N) : Prop :=
  part c /\ exists d r, d <> [] /\ Forall digit d /\ n = number d /\ p = lit "assets/characters/" ++ c ++ lit "/skins/skin" ++ d ++ lit "/" ++ r.

(** A shader: [y] is the last extension, [rest] what follows. *)
Definition shader_ext (y rest : str) : Prop :=
  exists x, (x = lit ".ps" \/ x = lit ".vs") /\
    ((y = x /\ (rest = [] \/ rest = [cNL] \/ exists c r, rest = c :: r /\ (c = cDot \/ c = cMinus))) \/ y = x ++ lit "_2_0" \/ y = x ++ lit "_3_0").
Definition shader (p s : str) : Prop :=
  exists x y rest, p = x ++ y ++ rest /\ s = x ++ y /\ ~ In cNL x /\ shader_ext y rest /\
    forall x' y' rest', p = x' ++ y' ++ rest' -> ~ In cNL x' -> shader_ext y' rest' -> (length x' <= length x)%nat.

(** ** Fixed patterns *)

Definition loot_splash (replaced : str -> str -> Prop) (p q : str) : Prop :=
  (exists r, p = lit "plugins/rcp-fe-lol-loot/global/default/assets/loot_item_icons/" ++ r) /\ replaced p q.
(** Perks: 8000, 8100, ... 8500 and the hundred numbers after each of them. *)
Definition primary (i : N) : Prop := exists a, a < 6 /\ i = 8000 + 100 * a.
Definition perk_path (q : str) : Prop :=
  exists i, primary i /\
    ((exists j k, (j = 0 \/ primary j) /\ (k = 0 \/ i <= k < i + 100) /\
      q = lit "plugins/rcp-fe-lol-perks/global/default/images/inventory-card/" ++ dec i ++ lit "/p" ++ dec i ++ lit "_s" ++ dec j ++ lit "_k" ++ dec k ++ lit ".jpg") \/
     exists name, q = lit "plugins/rcp-fe-lol-perks/global/default/images/construct/" ++ dec i ++ lit "/" ++ name /\
       (name = lit "environment.jpg" \/ name = lit "construct.png" \/ (exists j, i <= j < i + 100 /\ name = lit "keystones/" ++ dec j ++ lit ".png") \/ exists j, primary j /\ name = lit "second/" ++ dec j ++ lit ".png")).
Definition sanitizer_path (languages regions : list str) (q : str) : Prop :=
  exists name, q = lit "plugins/rcp-be-sanitizer/global/default/" ++ name /\
    ((exists i action, i < 5 /\ In action [lit "filter"; lit "unfilter"; lit "whitelist"] /\
       exists x, name = dec i ++ lit "." ++ action ++ x ++ lit ".csv" /\
         (x = [] \/ (exists r, In r regions /\ x = lit ".region." ++ r) \/ (exists l, In l languages /\ x = lit ".locale." ++ l) \/
          exists a b, In (a ++ lit "_" ++ b) languages /\ ~ In cUnder a /\ (x = lit ".language." ++ a \/ x = lit ".country." ++ b))) \/
     exists p, In p [lit "allowedchars"; lit "breakingchars"; lit "projectedchars"; lit "projectedchars1337"; lit "punctuationchars"; lit "variantaliases"] /\
       ((exists l, In l languages /\ name = p ++ lit ".locale." ++ l ++ lit ".txt") \/ exists a b, In (a ++ lit "_" ++ b) languages /\ ~ In cUnder a /\ name = p ++ lit ".language." ++ a ++ lit ".txt")).
