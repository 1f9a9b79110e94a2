(** StrAssignProps.v -- C157: what can be assigned to a String. *)
From Verif Require Import Base StrAssignModel StrAssignProofs.

(** C157, refuted: a character or a string_view can be assigned to a std::string but not to a String. *)
Theorem C157_refuted :
  (forall c, assign_std (AChr c) = Holds [c] /\ assign_String (AChr c) = DoesNotCompile) /\
  (forall t, assign_std (AView t) = Holds t /\ assign_String (AView t) = DoesNotCompile).
Proof. exact not_for_String. Qed.
Print Assumptions C157_refuted.

(** C157, refuted: a number assigned to a std::string is the character that is equal to it modulo 256. *)
Theorem C157_number_refuted : forall z, assign_String (AInt z) = DoesNotCompile /\
  exists c, assign_std (AInt z) = Holds [c] /\ (-128 <= c < 128 /\ exists k, c = z + 256 * k)%Z.
Proof. exact numbers. Qed.
Print Assumptions C157_number_refuted.

(** C157, refuted: s=0 is an error for a std::string; for a String it compiles and is undefined. *)
Theorem C157_zero_refuted : assign_std AZero = DoesNotCompile /\ assign_String AZero = Undefined.
Proof. exact zero. Qed.
Print Assumptions C157_zero_refuted.

(** C157, missing those: a String, std::string, text or list of characters is assigned alike, and gives the text; and the two differ for characters,
    numbers and string_views only. *)
Theorem C157_assign_partial :
  (forall x t, In x [AString t; AStd t; ACStr t; AList t] -> assign_String x = Holds t /\ assign_std x = Holds t) /\
  (forall x, assign_String x = assign_std x <-> match x with AChr _ | AInt _ | AView _ | AZero => False | _ => True end) /\
  (assign_String ANullptr = Undefined /\ assign_std ANullptr = Undefined).
Proof. exact (conj same_text (conj exactly null)). Qed.
Print Assumptions C157_assign_partial.

(** C157: a String is initialised as a std::string is: by texts and lists of characters, not by characters, numbers or string_views; a null pointer is undefined. *)
Theorem C157_initialise : forall x,
  init_String x = init_std x /\ init_String x = match x with AString t | AStd t | ACStr t | AList t => Holds t | ANullptr | AZero => Undefined | AChr _ | AInt _ | AView _ => DoesNotCompile end.
Proof. exact init_same. Qed.
Print Assumptions C157_initialise.

Example C157_example :
  assign_String (ACStr [72; 105]%Z) = Holds [72; 105]%Z /\ assign_std (AInt 321) = Holds [65]%Z /\ assign_String (AInt 321) = DoesNotCompile /\
  init_String (AStd [72; 105]%Z) = Holds [72; 105]%Z /\ init_String (AView [72]%Z) = DoesNotCompile.
Proof. vm_compute. repeat split. Qed.
