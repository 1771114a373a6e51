(** C37 and C54: MongoDB values. *)
From Coq Require Import List ZArith Bool Lia Arith ZifyBool ZifyNat.
From Coq Require Import String.
From Verif Require Import Base Text NetrefSpec JsonModel JsonSpec RedisSpec.
From Verif Require Import MongoModel MongoSpec MongoProofs MongoPrint.
Import ListNotations.
Open Scope list_scope.
Open Scope Z_scope.
Notation length := List.length.

(** The BSON document that is sent represents the command, whatever it nests. *)
Theorem mongo_execute cmd : sendable (Doc cmd) ->
  exists b, compose cmd = Some b /\ represents (B_document b) (Doc cmd).
Proof.
  intros H. exists (map (fun kv => (fst kv, encode (snd kv))) cmd). split; [apply compose_ok; exact H|].
  exact (encode_represents (Doc cmd) H).
Qed.

(** A reply in which only the last element of any array or document may have
    elements of its own is converted faithfully. *)
Theorem mongo_fetch_partial reply : trailing reply ->
  exists x, means (B_document reply) x /\ fetch reply = Some x.
Proof.
  intros H. destruct (flows_total (B_document reply)) as (r & F). exists (Doc r). split; [|apply fetch_flows; exact F].
  constructor. apply flows_trailing; assumption.
Qed.

(** Any other reply is garbled: this is what becomes of it. *)
Theorem mongo_fetch_exact reply : exists r, flows reply r /\ fetch reply = Some (Doc r).
Proof. destruct (flows_total (B_document reply)) as (r & F). exists r. split; [exact F|apply fetch_flows; exact F]. Qed.

(** In particular, if an element has elements and is not the last one then the
    result lacks elements. *)
Theorem mongo_fetch_loses pre k b x post : filled b ->
  exists r, fetch (pre ++ (k, b) :: x :: post) = Some (Doc r)
    /\ (length r < length (pre ++ (k, b) :: x :: post))%nat.
Proof.
  intros Fb. destruct (flows_total (B_document (pre ++ (k, b) :: x :: post))) as (r & F). exists r.
  split; [apply fetch_flows; exact F|]. eapply flows_shorter; [exact F|reflexivity|exact Fb].
Qed.

(** [{ cursor: { id: 0 }, ok: 1 }] becomes [{ cursor: { id: 0, ok: 1 } }]. *)
Theorem mongo_fetch_refuted :
  let reply := [(txt "cursor", B_document [(txt "id", B_int64 0)]); (txt "ok", B_int32 1)] in
  fetch reply = Some (Doc [(txt "cursor", Doc [(txt "id", Int 0); (txt "ok", Int 1)])])
  /\ forall x, fetch reply = Some x -> ~ means (B_document reply) x.
Proof.
  cbv zeta. assert (E : fetch [(txt "cursor", B_document [(txt "id", B_int64 0)]); (txt "ok", B_int32 1)]
    = Some (Doc [(txt "cursor", Doc [(txt "id", Int 0); (txt "ok", Int 1)])])) by (vm_compute; reflexivity).
  split; [exact E|]. intros x F. rewrite E in F. injection F as <-. intros M. inversion M as [|? ? H| | | | | | | | | |]; subst.
  inversion H as [|? ? ? ? _ H']; subst. inversion H'.
Qed.

(** Values are printed as their text; this theorem says that printing ends,
    that separators and brackets are right, and that binary data, object
    identifiers and time points can be read back. *)
Theorem mongo_print put_xu8 junk double_text v : proper v ->
  exists t, print put_xu8 junk double_text v = Some t
    /\ text_of (quote_json_string put_xu8 junk) double_text v t.
Proof. apply print_ok. Qed.

(** Binary data is written as base64 of the right length. *)
Theorem mongo_base64 s : Forall byte s ->
  base64_decode (encode_blocks (length s) s) = Some s
  /\ length (encode_blocks (length s) s) = ((length s + 2) / 3 * 4)%nat.
Proof.
  intros B. rewrite encode_blocks_all by lia. split; [apply decode_encode; exact B|apply encode_block_length].
Qed.

(** Time points which are whole milliseconds need not be printed exactly. *)
Theorem mongo_date_refuted :
  ~ forall ms, 0 <= ms < 2 ^ 43 -> print_ms (ms * 1000000) = ms.
Proof.
  intros H. specialize (H 1731700000001 ltac:(lia)). vm_compute in H. discriminate H.
Qed.

(** They are off by no more than one. *)
Theorem mongo_date ms : - 2 ^ 63 <= ms * 1000000 <= 2 ^ 63 -> ms - 1 <= print_ms (ms * 1000000) <= ms + 1.
Proof. intros H. destruct (print_ms_close _ H) as [A _]. lia. Qed.

(** *** Examples *)

Definition example_command : list (list Z * value) :=
  [(txt "insert", Utf8 (txt "people"));
   (txt "documents", Arr [Doc [(txt "n", Int 5000000000); (txt "b", Binary [0; 255; 7; 9])]; Doc []; Arr []]);
   (txt "at", Date (-1500000))].

Example example_sendable : sendable (Doc example_command) /\ proper (Doc example_command).
Proof.
  split; unfold example_command;
  repeat first [ apply sendable_utf8; vm_compute; congruence | apply sendable_binary; vm_compute; congruence
    | apply sendable_array; [|vm_compute; congruence] | apply sendable_document | apply Forall_cons | apply Forall_nil
    | apply sendable_other; exact I | apply proper_int; lia | apply proper_binary | apply proper_date; lia
    | apply proper_array | apply proper_document | apply proper_other; exact I
    | match goal with |- byte _ => unfold byte; lia end | progress cbn [snd] ].
Qed.

Example example_composed : compose example_command = Some
  [(txt "insert", B_utf8 (txt "people"));
   (txt "documents", B_array
     [(txt "0", B_document [(txt "n", B_int64 5000000000); (txt "b", B_binary [0; 255; 7; 9])]);
      (txt "1", B_document []); (txt "2", B_array [])]);
   (txt "at", B_date_time (-1))].
Proof. vm_compute. reflexivity. Qed.

Example example_printed :
  print (hex_digits 8) 0 (fun _ => []) (Doc example_command) = Some
  (txt "{""insert"":""people"",""documents"":[{""n"":5000000000,""b"":{$base64:""AP8HCQ==""}},{},[]],""at"":{$date:{$numberLong:""-1""}}}").
Proof. vm_compute. reflexivity. Qed.

Example example_trailing : trailing [(txt "ok", B_double 1); (txt "e", B_array []);
  (txt "list", B_array [(txt "0", B_int32 3); (txt "1", B_document [(txt "x", B_null)])])].
Proof.
  repeat first [ apply trailing_end | apply trailing_last | apply trailing_next; [cbn; intuition congruence|]
    | apply trailing_array | apply trailing_document | apply trailing_scalar; exact I ].
Qed.

Example example_fetched : fetch [(txt "ok", B_double 1); (txt "e", B_array []);
  (txt "list", B_array [(txt "0", B_int32 3); (txt "1", B_document [(txt "x", B_null)])])]
  = Some (Doc [(txt "ok", Double 1); (txt "e", Arr []); (txt "list", Arr [Int 3; Doc [(txt "x", Null)]])]).
Proof. vm_compute. reflexivity. Qed.

Print Assumptions mongo_execute.
Print Assumptions mongo_fetch_partial.
Print Assumptions mongo_fetch_exact.
Print Assumptions mongo_fetch_loses.
Print Assumptions mongo_fetch_refuted.
Print Assumptions mongo_print.
Print Assumptions mongo_base64.
Print Assumptions mongo_date.
Print Assumptions mongo_date_refuted.
