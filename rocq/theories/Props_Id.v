(** Property C53, continued: the device of any string.  [stands], [int_of], [numbered]: IdSpec.v. *)
From Coq Require Import String Ascii.
From Verif Require Import Base CatalogModel IdSpec IdFacts.
Local Open Scope string_scope.

(** C53: with CUDA the device is the int read after the first two colons, without it the digits that end the name after two colons;
    where there are none it is the current device.  [None]: an exception of std::stoi. *)
Theorem C53_parse : forall cuda cur x r, device_id cuda cur x = r <-> stands cur cuda x r.
Proof. exact device_id_is. Qed.
Print Assumptions C53_parse.

(** C53: a number is read the same way wherever it is read: blanks, sign, digits, and it must be an int. *)
Theorem C53_number : forall s r, stoi s = r <-> int_of s r.
Proof. exact stoi_is. Qed.
Print Assumptions C53_number.

Example C53_parse_cases :
  device_id true 3 "DEVICE::2147483647" = Some 2147483647%Z /\ device_id true 3 "DEVICE::2147483648" = None /\
  device_id false 3 "DEVICE::2147483648" = None /\ device_id true 3 "DEVICE::1::FINE" = Some 1%Z /\ device_id false 3 "DEVICE::1::FINE" = Some 3%Z /\
  device_id false 3 ("a" ++ String "010" "::1") = Some 3%Z /\ device_id true 3 ("a" ++ String "010" "::1") = Some 1%Z /\
  int_of " -12x" (Some (-12)%Z).
Proof.
  repeat split; try reflexivity; try lia. apply (reads_at " " "-" (-1) "12" "x").
  - intros c [<-|[]]. vm_compute. tauto.
  - cbn. auto.
  - discriminate.
  - intros c [<-|[<-|[]]]; vm_compute; split; discriminate.
  - intros c t H. injection H as <- <-. unfold digit. vm_compute. intros [_ H]. now apply H.
Qed.

(** C53 fails for "a name has one device, whatever the build": the two versions of the code disagree on names with signs, words or further
    colons; with CUDA a device can be negative. *)
Theorem C53_builds_refuted :
  exists x y z, device_id true 0 x = Some (-1)%Z /\ device_id false 0 x = Some 0%Z /\
    device_id true 0 y = Some 1%Z /\ device_id false 0 y = Some 2%Z /\
    device_id true 0 z = None /\ device_id false 0 z = Some 0%Z.
Proof. exists "DEVICE::-1", "DEVICE::1::2", "DEVICE::FINE". repeat split; reflexivity. Qed.
Print Assumptions C53_builds_refuted.
