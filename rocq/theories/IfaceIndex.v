(* Model of get_interface_index_by_name(). *)
From Verif Require Import Base Inet.
Local Open Scope Z_scope.

(* get_interface_index_by_name(), iface.cpp:228-231; nametoindex: the answers
   of if_nametoindex(), which takes a C string. *)
Definition get_interface_index_by_name (nametoindex : str -> Z) (name : str) : Z :=
  nametoindex (c_str name).
