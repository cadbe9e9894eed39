(** Everything the version check can write, line by line. *)
From Verif Require Import Base Parser VersionCheck.

(** lines under a heading, and an empty line *)
Definition paragraph (heading : string) (lines : list string) : string :=
  fold_right (fun l rest => heading +s+ " :: " +s+ l +s+ String "010" rest) (String "010" "") lines.

Definition switch_off : string := "If you don't wish to receive further notifications, set --version-check false.".

Definition says_new_version (url : string) : string :=
  paragraph "[APP VERSION INFO]"
    (["A new version of this application is now available."; switch_off] ++
     match url with EmptyString => [] | _ => ["Visit " +s+ url +s+ " for updates."] end).
Definition says_new_library : string :=
  paragraph "[SHARG VERSION INFO]"
    ["A new Sharg version is available online."; "Please visit www.github.com/seqan/sharg-parser.git for an update";
     "or inform the developer of this app."; switch_off].
Definition says_unregistered : string :=
  paragraph "[SHARG VERSION INFO]"
    ["Thank you for using Sharg!"; "Do you wish to register your app for update notifications?";
     "Just send an email to support@seqan.de with your app name and version number."; switch_off].
Definition says_newer_than_registered : string :=
  paragraph "[APP VERSION INFO]"
    ["We noticed the app version you use is newer than the one registered with us.";
     "Please send us an email with the new version so we can correct it (support@seqan.de)"].

Definition asks : string :=
  let rule := "#######################################################################" in
  fold_right (fun l rest => l +s+ String "010" rest) ""
    [""; rule; "   Automatic Update Notifications"; rule; "";
     " This app can look for updates automatically in the background,"; " do you want to do that?"; "";
     "    [a] Always perform version checks for this app (the default).";
     "    [n] Never perform version checks for this app.";
     "    [y] Yes, perform a version check now, and ask again tomorrow.";
     "    [s] Skip the version check now, but ask again tomorrow."; "";
     " Please enter one of [a, n, y, s] and press [RETURN]."; "";
     " For more information, see:"; " https://docs.seqan.de/sharg/main_user/about_update_notifications.html"; ""; rule; ""].

(** users of a release build hear about new versions of the application only, everything else is for its developer;
    the question is put to a person only *)
Definition may_say (e : venv) (m : meta) (s : string) : Prop :=
  (ve_tty e = true /\ s = asks) \/
  (ve_ndebug e = true /\ s = says_new_version (m_url m)) \/
  (ve_ndebug e = false /\ (s = says_new_library \/ s = says_unregistered \/ s = says_newer_than_registered)).
