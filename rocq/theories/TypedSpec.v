(** * TypedSpec: calls with a typed value beside calls with plain bytes *)
From Verif Require Import Base Error Packet Bus Data Client Instructions.

(** What a user gets who asks for the bytes of a response and decodes them. *)
Definition decode_response {A} (D : data_impl A) (r : response (list byte)) : out (result (response A) invalid_message) :=
  match d_decode D (r_data r) with
  | Val (Ok v) => Val (Ok (mkResponse (r_motor_id r) (r_alert r) v))
  | Val (Err e) => Val (Err e)
  | Panic k => Panic k
  | Blocked => Blocked
  end.

(** The same for the outcome of a call; errors of the call stay as they are. *)
Definition decode_outcome {A E} (D : data_impl A) (wrap : invalid_message -> E)
    (o : out (result (response (list byte)) E)) : out (result (response A) E) :=
  match o with
  | Val (Ok r) =>
      match decode_response D r with
      | Val (Ok v) => Val (Ok v)
      | Val (Err e) => Val (Err (wrap e))
      | Panic k => Panic k
      | Blocked => Blocked
      end
  | Val (Err e) => Val (Err e)
  | Panic k => Panic k
  | Blocked => Blocked
  end.

(** The iterator over values and the one over bytes stand at the same motor of the same list. *)
Definition same_position {A} (D : data_impl A) (it : sync_read_it) (itb : sync_read_bytes_it) : Prop :=
  sr_ids it = srb_ids itb /\ sr_index it = srb_index itb /\ srb_count itb = N.of_nat (d_size D).

(** Decoding a byte string of the right length does not panic. *)
Definition decodes_calmly {A} (D : data_impl A) : Prop :=
  forall l, length l = d_size D -> exists r, d_decode D l = Val r.
