(** * What [adjust] does to the canonical path (C72)

    [display], [adjust_unix], [adjust_windows]: Adjust.v.  [utf8 s] are the bytes of the text [s]; [win_canonical p root rest]:
    [p] is a canonical Windows path that names [rest] on the drive or share [root], [win_plain] the same for ordinary absolute
    paths (SpecAdjust.v). *)
From Coq Require Import String.
From Coq Require Import List Arith NArith Bool.
From Verif Require Import Str Adjust SpecAdjust PropAdjustP.
Import ListNotations.
Open Scope list_scope.

(** Wanted: what [adjust] returns names the file that was canonicalised.  On Unix this is so exactly for paths in UTF-8 (so
    that in Resolve.v, where a path is a text, [adjust] is the identity). *)
Theorem C72_text_partial : forall s, Forall scalar s -> adjust_unix (utf8 s) = s.
Proof. exact fin_72_text. Qed.
Print Assumptions C72_text_partial.
Theorem C72_exact_partial : forall b, utf8 (adjust_unix b) = b <-> is_utf8 b.
Proof. exact fin_72_exact. Qed.
Print Assumptions C72_exact_partial.
(** What comes before the first byte that is not UTF-8 is kept. *)
Theorem C72_prefix : forall s b, Forall scalar s -> adjust_unix (utf8 s ++ b) = s ++ adjust_unix b.
Proof. exact fin_72_prefix. Qed.
Print Assumptions C72_prefix.
(** Where no character starts, one replacement character stands for the longest beginning of a character there is, at least for
    one byte (with C72_prefix this says what the result is for all byte sequences). *)
Theorem C72_invalid : forall x r, ~ starts_char (x :: r) -> exists k, (1 <= k <= length (x :: r))%nat /\
  adjust_unix (x :: r) = replacement :: adjust_unix (skipn k (x :: r)) /\
  (k = 1%nat \/ begins (firstn k (x :: r))) /\
  forall k', (k < k' <= length (x :: r))%nat -> ~ begins (firstn k' (x :: r)).
Proof. exact fin_72_invalid. Qed.
Print Assumptions C72_invalid.
(** For other paths the result is the name of another file: a file below the directory "caf\xe9" (Latin-1) is reported as one
    below a directory whose name ends in U+FFFD. *)
Theorem C72_bytes_refuted : exists b b', Forall byte b /\ Forall byte b' /\ b <> b' /\ is_utf8 b' /\ adjust_unix b = adjust_unix b' /\
  b = utf8 (lit "/r/caf") ++ [233%N] ++ utf8 (lit "/x.js").
Proof. exact fin_72_bytes. Qed.
Print Assumptions C72_bytes_refuted.
Example C72_text_ex : adjust_unix [47; 195; 169; 226; 130; 172; 240; 159; 166; 128]%N = [47; 233; 8364; 129408]%N /\
  utf8 [47; 233; 8364; 129408]%N = [47; 195; 169; 226; 130; 172; 240; 159; 166; 128]%N /\
  adjust_unix [47; 240; 159; 166; 47; 237; 160; 128]%N = [47; 65533; 47; 65533; 65533; 65533]%N.
Proof. repeat split; vm_compute; reflexivity. Qed.

(** Likewise an extension is appended to the path itself exactly for paths in UTF-8; otherwise the file asked for is in another
    place than the one requested. *)
Theorem C72_extension_partial : forall p ext, append_ext_unix p ext = p ++ utf8 ext <-> is_utf8 p.
Proof. exact fin_72_ext. Qed.
Print Assumptions C72_extension_partial.
Example C72_extension_ex : append_ext_unix [47; 195; 169; 47; 120]%N (lit ".js") = [47; 195; 169; 47; 120; 46; 106; 115]%N /\
  append_ext_unix [47; 233; 47; 120]%N (lit ".js") = [47; 239; 191; 189; 47; 120; 46; 106; 115]%N.
Proof. split; vm_compute; reflexivity. Qed.

(** On Windows: canonical paths on a drive, and paths without the prefix, keep their meaning. *)
Theorem C72_drive_partial : forall p c rest, win_canonical p (Drive c) rest ->
  exists q, adjust_windows p = Some q /\ win_plain q (Drive c) rest.
Proof. exact fin_72_drive. Qed.
Print Assumptions C72_drive_partial.
Theorem C72_other_partial : forall p r rest, win_plain p r rest -> adjust_windows p = Some p.
Proof. exact fin_72_other. Qed.
Print Assumptions C72_other_partial.
(** All canonical paths on a share become relative paths. *)
Theorem C72_share_refuted : forall p a b rest, win_canonical p (Share a b) rest -> exists q, adjust_windows p = Some q /\
  q = lit "UNC\" ++ a ++ lit "\" ++ b ++ lit "\" ++ rest /\ forall r rest', ~ win_plain q r rest' /\ ~ win_canonical q r rest'.
Proof. exact fin_72_share. Qed.
Print Assumptions C72_share_refuted.
Example C72_windows_ex : adjust_windows (lit "\\?\C:\r\a.js") = Some (lit "C:\r\a.js") /\
  win_canonical (lit "\\?\UNC\nas\src\r\a.js") (Share (lit "nas") (lit "src")) (lit "r\a.js") /\
  adjust_windows (lit "\\?\UNC\nas\src\r\a.js") = Some (lit "UNC\nas\src\r\a.js").
Proof. exact ex72w. Qed.
