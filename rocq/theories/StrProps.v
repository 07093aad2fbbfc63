(** C13 string order, C14 prefixes and suffixes, C15 patterns. *)
From Coq Require Import ZArith List Bool Lia.
From Verif Require Import StrModel StrSpec StrProofs.
Import ListNotations.
Open Scope Z_scope.

(** C13.  StringPiece comparison is the dictionary order of the lower-cased strings. *)
Theorem C13_compare_is_dictionary_order : forall a b,
  (sp_eq a b = true <-> same_nocase a b) /\
  (sp_lt a b = true <-> lex (lower_str a) (lower_str b)) /\
  (sp_gt a b = true <-> lex (lower_str b) (lower_str a)).
Proof. exact sp_dictionary. Qed.
Example C13_compare_ex : sp_eq [72; 105] [104; 73] = true /\ sp_lt [65] [97; 98] = true /\
  sp_lt [90] [98] = false.
Proof. repeat split; reflexivity. Qed.

Theorem C13_consistent_order : forall a b c,
  sp_le a a = true /\
  (sp_le a b = true -> sp_le b a = true -> same_nocase a b) /\
  (sp_le a b = true -> sp_le b c = true -> sp_le a c = true) /\
  (sp_le a b = true \/ sp_le b a = true) /\
  (sp_lt a b = true <-> sp_gt b a = true) /\
  sp_lt a b = negb (sp_le b a) /\ sp_ne a b = negb (sp_eq a b).
Proof. exact cmp_laws. Qed.

(** The finding: ">=" answers true for a string that is strictly smaller. *)
Theorem C13_greater_equal_refuted :
  exists a b, sp_lt a b = true /\ sp_ge a b = true /\ sp_ge b a = false.
Proof. exact sp_ge_bug. Qed.

(** C14. *)
Theorem C14_startswith : forall p x r,
  startswith p x = Some r <-> exists pre, x = pre ++ r /\ same_nocase pre p.
Proof. exact startswith_spec. Qed.
Example C14_startswith_ex : startswith [72; 105] [104; 73; 33] = Some [33] /\ startswith [72; 105] [104] = None.
Proof. split; reflexivity. Qed.

Theorem C14_endswith : forall p x,
  endswith p x = true <-> exists a b, x = a ++ b /\ same_nocase b p.
Proof. exact endswith_spec. Qed.
Example C14_endswith_ex : endswith [46; 119] [97; 46; 87] = true /\ endswith [97; 97] [97] = false.
Proof. split; reflexivity. Qed.

Theorem C14_FirstWord : forall s w, is_word w ->
  (FirstWord s w = true <-> hd_error (words s) = Some w).
Proof. exact FirstWord_spec. Qed.
Example C14_FirstWord_ex : is_word [104; 105] /\ FirstWord [32; 104; 105; 9; 33] [104; 105] = true /\
  FirstWord [104; 105; 33] [104; 105] = false.
Proof.
  repeat split; try reflexivity; try discriminate.
  repeat constructor; intros [?|?]; discriminate.
Qed.

(** [words] is the right notion of words: it inverts joining words with spaces, and
    yields only words. *)
Theorem C14_words_sound : forall s, Forall is_word (words s).
Proof. exact words_are_words. Qed.
Theorem C14_words_of_join : forall ws, Forall is_word ws -> words (join ws) = ws.
Proof. exact words_join. Qed.
Example C14_words_ex : words [32; 97; 98; 32; 9; 99; 32] = [[97; 98]; [99]].
Proof. reflexivity. Qed.

(** CountWords counts the words, plus one if the string ends in a blank. *)
Theorem C14_CountWords : forall s,
  CountWords s = Z.of_nat (length (words s)) +
                 (match rev s with c :: _ => if blankb c then 1 else 0 | [] => 0 end).
Proof. exact CountWords_rev. Qed.
Example C14_CountWords_ex : CountWords [97; 32; 98] = 2 /\ CountWords [97; 32; 98; 32] = 3.
Proof. split; reflexivity. Qed.

(** C15. *)
Theorem C15_pattern_round_trip : forall p v, In star p ->
  match_pattern p (format_pattern p v) = MRes (Some v).
Proof. exact match_format. Qed.
Example C15_round_trip_ex : In star [42; 47; 104; 42] /\
  format_pattern [42; 47; 104; 42] [49; 50] = [49; 50; 47; 104; 49; 50].
Proof. split; [left|]; reflexivity. Qed.

Theorem C15_match_sound : forall p v r, match_pattern p v = MRes (Some r) ->
  same_nocase v (format_pattern p r).
Proof. exact match_sound. Qed.

(** The buffer allocated for the formatted text has room for it and its NUL. *)
Theorem C15_format_fits : forall p v,
  Z.of_nat (length (format_pattern p v)) + 1 < 2^32 ->
  format_alloc p v = Z.of_nat (length (format_pattern p v)) + 1.
Proof. exact format_alloc_ok. Qed.
Example C15_format_fits_ex : format_alloc [42; 47; 104; 42] [] = 3.
Proof. reflexivity. Qed.

(** The finding: a pattern without star divides by zero unless the value is shorter. *)
Theorem C15_no_star_refuted : forall p v, ~ In star p -> (length p <= length v)%nat ->
  match_pattern p v = MDivZero.
Proof. exact match_no_star. Qed.
Example C15_no_star_ex : match_pattern [97] [97] = MDivZero.
Proof. reflexivity. Qed.

Print Assumptions C13_compare_is_dictionary_order.
Print Assumptions C13_consistent_order.
Print Assumptions C14_startswith.
Print Assumptions C14_endswith.
Print Assumptions C14_FirstWord.
Print Assumptions C14_words_of_join.
Print Assumptions C14_CountWords.
Print Assumptions C15_pattern_round_trip.
Print Assumptions C15_match_sound.
Print Assumptions C15_format_fits.
Print Assumptions C15_no_star_refuted.
Print Assumptions C13_greater_equal_refuted.
Print Assumptions C14_words_sound.
