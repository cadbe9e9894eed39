(** The texts of the version check: the address in the message (C50), the answers offered (C61). *)
From Verif Require Import Base StrLib VersionCheck VersionSpec HelpSpec VersionTextsSpec VersionTexts.

(** The message about a new version of the program names the address of the program if and only if it has one. *)
Theorem C50_address : forall url, has_part ("Visit " +s+ url +s+ " for updates.") (message_app_update url) <-> url <> "".
Proof. exact address_lemma. Qed.
Print Assumptions C50_address.

(** Every answer the question offers does what its words say: the check is done now or not, and the question is
    put again or not. *)
Theorem C61_offered : forall c t, offers c t ->
  (fst (verdict (str1 c)) = true <-> checks_now t) /\ (snd (verdict (str1 c)) = "ASK" <-> asks_again t).
Proof. exact offered_lemma. Qed.
Print Assumptions C61_offered.

Example C61_offered_ex : offers "a" "Always perform version checks for this app (the default)." /\ offers "n" "Never perform version checks for this app."
  /\ offers "y" "Yes, perform a version check now, and ask again tomorrow." /\ offers "s" "Skip the version check now, but ask again tomorrow."
  /\ lines (message_app_update "https://a.b") = ["[APP VERSION INFO] :: A new version of this application is now available.";
       "[APP VERSION INFO] :: If you don't wish to receive further notifications, set --version-check false."; "[APP VERSION INFO] :: Visit https://a.b for updates."; ""; ""].
Proof. repeat split; try (apply offers_iff; vm_compute; tauto). Qed.
