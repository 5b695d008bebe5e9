(** Well-formed frames, and what a byte stream means when it has arrived completely. *)
From Verif Require Export Frame.

Definition one_line (b : bytes) : Prop := ~ In CR b /\ ~ In LF b.

(** Frames with a faithful wire form: text without line breaks (an error text is not empty), integers of 64
    bits, lengths below 2^63. *)
Fixpoint wf_frame (f : frame) : Prop :=
  match f with
  | FSimple b => one_line b
  | FError b => b <> [] /\ one_line b
  | FInteger z => (- 2 ^ 63 <= z < 2 ^ 63)%Z
  | FBulk b => (N.of_nat (length b) < 2 ^ 63)%N
  | FNull => True
  | FArray l =>
      (N.of_nat (length l) < 2 ^ 63)%N /\
      (fix all (l : list frame) : Prop := match l with [] => True | x :: l' => wf_frame x /\ all l' end) l
  | FPing | FPong | FNoRes => False
  end.

(** [s] is a proper prefix of [t]. *)
Definition proper_prefix (s t : bytes) : Prop := exists u, u <> [] /\ t = s ++ u.
