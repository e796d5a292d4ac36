(** * Property C66: 32-bit indices.

    [check_target32] and [field_process32] compute with [i32] as the program does ([Map32.v]): conversions wrap around,
    operations panic in debug builds ([true]) and wrap around in release builds ([false]).  [check_target] and
    [field_process], which all other properties are about, compute with unbounded integers. *)
From Coq Require Import String.
From Coq Require Import List Arith NArith ZArith Bool.
From Verif Require Import Str Json Types Map Map32 SpecMap Map32P.
Import ListNotations.

(** C66: below 2^31 - 1 bytes the width makes no difference. *)
Theorem C66_field_process : forall debug fk root target names, (Z.of_nat (blen target) < 2147483647)%Z ->
  field_process32 debug fk root target names = field_process fk root target names.
Proof. exact C66_field_p. Qed.
Print Assumptions C66_field_process.
Theorem C66_check_target : forall debug p, (Z.of_nat (length p) < 2147483648)%Z -> check_target32 debug p = check_target p.
Proof. exact check_fit_p. Qed.
Print Assumptions C66_check_target.
(** Of a target of any length that counts no more than 2^31 - 1 steps down before the last segment, too. *)
Theorem C66_check_target_shallow : forall debug p, (Z.of_nat (length (split_on 47%N p)) <= 2147483648)%Z -> check_target32 debug p = check_target p.
Proof. exact check_shallow_p. Qed.
Print Assumptions C66_check_target_shallow.

(** Longer texts: a target that stays inside the package is turned down in release builds and panics in debug builds. *)
Theorem C66_long_target_refuted : exists p, check_target p = PRet true /\ stays_inside p /\ check_target32 false p = PRet false /\
  exists msg, check_target32 true p = PPanic msg.
Proof. exact too_deep_p. Qed.
Print Assumptions C66_long_target_refuted.
(** The bound on requests is sharp up to the two bytes of the prefix: an ASCII request of 2^31 + 1 bytes panics in debug builds. *)
Theorem C66_long_request_refuted : exists fk root target names, (forall c, In c target -> (c < 128)%N) /\ Z.of_nat (blen target) = 2147483649%Z /\
  field_process fk root target names = PRet (Ok [lit "./x"]) /\ field_process32 false fk root target names = PRet (Ok [lit "./x"]) /\
  exists msg, field_process32 true fk root target names = PPanic msg.
Proof. exact field_debug_p. Qed.
Print Assumptions C66_long_request_refuted.

(** Short texts, with folder, pattern and file keys; and one step more than fits. *)
Example C66_ex : forall debug,
  (match build_field FExports c66_json with
   | PRet (Ok root) =>
       map (fun t => field_process32 debug FExports root (lit t) [lit "import"]) ["./a/b.js"; "./lib/x.js"; "./f"; "./none"]%string
   | _ => []
   end) = [PRet (Ok [lit "./src/b.js"]); PRet (Ok [lit "./dist/x.js"]); PRet (Ok [lit "./g.js"]); PRet (Ok [])] /\
  check_target32 debug (lit "a/../b/./../x") = PRet true /\ check_target32 debug (lit "a/../../x") = PRet false.
Proof. exact C66_ex_p. Qed.
Example C66_width_ex :
  arith32 true 2147483648 = PPanic (lit "arithmetic operation overflowed") /\ arith32 false 2147483648 = PRet (-2147483648)%Z /\
  arith32 true (-2147483648) = PRet (-2147483648)%Z /\ wrap32 (2147483647 + 2) = (-2147483647)%Z /\ as_usize 5 = 5.
Proof. exact C66_width_ex_p. Qed.
