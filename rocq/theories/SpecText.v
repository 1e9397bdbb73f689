(* Independent vocabulary for the text properties. *)
From Verif Require Import Base Addr Spec.
Local Open Scope Z_scope.

(* s is the usual decimal notation of v: digits, no needless leading zero. *)
Definition plain_decimal (s : str) (v : Z) : Prop :=
  decimal s v /\ (v <> 0 -> hd 0 s <> 48) /\ (v = 0 -> s = lit "0").

(* s is the dotted notation of the IPv4 address whose number is v. *)
Definition dotted (s : str) (v : Z) : Prop :=
  exists a b c d sa sb sc sd,
    is_byte a /\ is_byte b /\ is_byte c /\ is_byte d /\ v = quad a b c d
    /\ plain_decimal sa a /\ plain_decimal sb b /\ plain_decimal sc c /\ plain_decimal sd d
    /\ s = sa ++ lit "." ++ sb ++ lit "." ++ sc ++ lit "." ++ sd.

(* mode asks for one of the flags *)
Definition asks (mode flags : Z) : Prop := Z.land mode flags <> 0.

(* a character of the text of an IP address: a hexadecimal digit, a period or
   a colon *)
Definition ip_text (c : Z) : Prop :=
  48 <= c <= 57 \/ 97 <= c <= 102 \/ 65 <= c <= 70 \/ c = 46 \/ c = 58.
