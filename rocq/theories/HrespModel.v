(** Model of how an HTTP client receives responses: http/http_response_parser.cpp, [do_on_tcp_stream] of
    socket/http_client_session.cpp and [estimate_size] of http/http_s_headers.cpp, all in /repo/poseidon/src.
    The HTTPS session (socket/https_client_session.cpp) differs from it only in names.

    As in HreqModel, the external library http_parser is represented by the calls that it makes on the functions of
    [HTTP_Response_Parser::s_settings].  Which calls it makes for a payload depends on [set_no_payload]
    (http_response_parser.hpp:69-75), too: the calls are an arbitrary input here. *)
From Coq Require Import ZArith List Bool String.
From Verif Require Import Base Text.
From Verif Require Export HreqModel.
Import ListNotations.
Open Scope list_scope.
Open Scope Z_scope.
Notation length := List.length.

(** The calls.  [Status] carries [ps->status_code], [Headers_complete] carries [http_should_keep_alive(ps)].
    [Fail] is an error which the library finds itself. http_response_parser.cpp:11-101 *)
Inductive call :=
| Status (code : Z) (s : list Z) | Field (s : list Z) | Value (s : list Z)
| Headers_complete (keep_alive : bool)
| Body (s : list Z) | Message_complete | Fail.

(** http_s_headers.hpp:13-19 *)
Record headers := mkH { status : Z; reason : list Z; fields : list (list Z * option (list Z)) }.
(** http_s_headers.hpp:38-46 [clear] *)
Definition no_headers : headers := mkH 0 [] [].
(** http_s_headers.cpp:15-25 [estimate_size] *)
Definition estimate_size (h : headers) : Z := 12 + Z.of_nat (length (reason h)) + fields_size (fields h).
(** http_response_parser.cpp:36, 45, 60 *)
Definition set_fields (h : headers) (f : list (list Z * option (list Z))) : headers := mkH (status h) (reason h) f.

(** http_response_parser.hpp:21-32 *)
Inductive stage := Hresp_new | Hresp_headers_done | Hresp_payload_done.
(** http_response_parser.hpp:12-32.  Errors are all alike. *)
Inductive errno := Ok | Paused | Error.
(** http_response_parser.hpp:12-32 *)
Record parser := mkP { err : errno; hd : headers; payload : list Z; hresp : stage; close : bool }.
(** A change of [m_headers]; http_response_parser.cpp:25-60. *)
Definition set_hd (p : parser) (h : headers) : parser := mkP (err p) h (payload p) (hresp p) (close p).
(** A change of [http_errno]; http_response_parser.cpp:168, 193. *)
Definition set_err (p : parser) (e : errno) : parser := mkP e (hd p) (payload p) (hresp p) (close p).
(** A change of [m_payload]; http_response_parser.cpp:83. *)
Definition set_payload (p : parser) (d : list Z) : parser := mkP (err p) (hd p) d (hresp p) (close p).

(** http_response_parser.cpp:22-94 *)
Inductive outcome := Next (p : parser) | Throws | Undefined.

(** http_response_parser.cpp:22-28 *)
Definition on_status (p : parser) (code : Z) (s : list Z) : outcome :=
  Next (set_hd p (mkH code (reason (hd p) ++ s) (fields (hd p)))).

(** http_response_parser.cpp:30-47 *)
Definition on_header_field (L : limits) (p : parser) (s : list Z) : outcome :=
  let f := match last_of (fields (hd p)) with
           | Some (_, None) => fields (hd p)
           | _ => fields (hd p) ++ [([], None)]
           end in
  let h := set_fields (hd p) f in
  if max_header_length L <? estimate_size h + Z.of_nat (length s) then Throws
  else match last_of f with
       | Some (n, v) => Next (set_hd p (set_fields h (set_last f (n ++ s, v))))
       | None => Undefined
       end.

(** http_response_parser.cpp:49-62; [back()] of an empty vector is undefined *)
Definition on_header_value (L : limits) (p : parser) (s : list Z) : outcome :=
  if max_header_length L <? estimate_size (hd p) + Z.of_nat (length s) then Throws
  else match last_of (fields (hd p)) with
       | Some (n, v) => Next (set_hd p (set_fields (hd p) (set_last (fields (hd p)) (n, Some (value_text v ++ s)))))
       | None => Undefined
       end.

(** http_response_parser.cpp:64-72 *)
Definition on_headers_complete (p : parser) (keep_alive : bool) : parser :=
  mkP Paused (hd p) (payload p) Hresp_headers_done (negb keep_alive).

(** http_response_parser.cpp:74-85 *)
Definition on_body (L : limits) (p : parser) (s : list Z) : outcome :=
  if max_content_length L <? Z.of_nat (length (payload p)) + Z.of_nat (length s) then Throws
  else Next (set_payload p (payload p ++ s)).

(** http_response_parser.cpp:87-94 *)
Definition on_message_complete (p : parser) : parser :=
  mkP Paused (hd p) (payload p) Hresp_payload_done (close p).

(** http_response_parser.cpp:11-101 *)
Definition callback (L : limits) (p : parser) (c : call) : outcome :=
  match c with
  | Status n s => on_status p n s
  | Field s => on_header_field L p s
  | Value s => on_header_value L p s
  | Headers_complete k => Next (on_headers_complete p k)
  | Body s => on_body L p s
  | Message_complete => Next (on_message_complete p)
  | Fail => Next (set_err p Error)
  end.

(** [http_parser_execute]: it stops as soon as there is an error, of which a pause is one.  What it has not
    consumed is left. Called at http_response_parser.cpp:160, 164. *)
Inductive result := Left (p : parser) (cs : list call) | Thrown | Undef.
(** Called at http_response_parser.cpp:160, 164. *)
Fixpoint execute (L : limits) (p : parser) (cs : list call) : result :=
  match err p with
  | Ok =>
      match cs with
      | [] => Left p []
      | c :: cs => match callback L p c with
                   | Next p => execute L p cs
                   | Throws => Thrown
                   | Undefined => Undef
                   end
      end
  | _ => Left p cs
  end.

(** http_response_parser.cpp:151-194 [parse_headers_from_stream], [parse_payload_from_stream] *)
Definition unpause (p : parser) : parser := match err p with Paused => set_err p Ok | _ => p end.
(** http_response_parser.cpp:151-194 *)
Definition parse (L : limits) (p : parser) (cs : list call) : result :=
  match execute L p cs with Left p cs => Left (unpause p) cs | r => r end.

(** http_response_parser.hpp:125-136 [next_message] *)
Definition next_message (p : parser) : parser := mkP (err p) no_headers [] Hresp_new false.

(** What the session tells the application: [do_on_http_response_headers],
    [do_on_http_response_payload_stream] with what the application took from the buffer,
    [do_on_http_response_finish] and [do_on_http_upgraded_stream], for which the octets are represented by the calls that they would
    have caused; and what it does: [tcp_shut_down], [quick_shut_down].  [Exception] is an exception that
    leaves [do_on_tcp_stream]; the network driver closes the connection then. http_client_session.cpp:26, 49, 57, 70, 86, 90, 98, 102 *)
Inductive event :=
| On_headers (h : headers) | On_stream (taken : list Z) | On_finish (h : headers) (data : list Z)
| Shut_down | Quick_shut_down | On_upgraded (cs : list call) | Exception | Undefined_behaviour.
(** http_client_session.cpp:58-78 *)
Inductive payload_type := Payload_normal | Payload_empty | Payload_connect.

(** The application decides from what it has been told: what [do_on_http_response_headers] leaves of the headers and
    what it returns, and how much of the payload it takes each time. http_client_session.cpp:57, 90 *)
Record application := mkA { a_headers : list event -> headers -> headers * payload_type; a_take : list event -> nat }.

(** http_client_session.cpp:21-114 *)
Record session := mkS { ack : bool; par : parser; trace : list event; gone : bool }.
(** Not in the code: a call of a function of the application or of the socket, http_client_session.cpp:26, 49, 57, 70, 86, 90, 98, 102. *)
Definition add (s : session) (e : event) : session := mkS (ack s) (par s) (trace s ++ [e]) (gone s).
(** Not in the code: a change of [m_resp_parser], http_client_session.cpp:45, 82, 111. *)
Definition set_par (s : session) (p : parser) : session := mkS (ack s) p (trace s) (gone s).
(** http_client_session.cpp:68, 108 *)
Definition set_ack (s : session) : session := mkS true (par s) (trace s) (gone s).
(** Not in the code: an exception leaves http_client_session.cpp:21-114. *)
Definition fail (s : session) (e : event) : session := mkS (ack s) (par s) (trace s ++ [e]) true.
(** http_client_session.cpp:39, 47, 84 *)
Definition is_error (p : parser) : bool := match err p with Ok => false | _ => true end.

(** http_client_session.cpp:81-113, the second half of the loop *)
Definition after_headers (L : limits) (A : application) (s : session) (cs : list call) : session * option (list call) :=
  match hresp (par s) with
  | Hresp_payload_done => (set_par s (next_message (par s)), Some cs)
  | _ =>
    match parse L (par s) cs with
    | Thrown => (fail s Exception, None)
    | Undef => (fail s Undefined_behaviour, None)
    | Left p cs =>
        let s := set_par s p in
        if is_error p then (add s Quick_shut_down, None)
        else
          let k := a_take A (trace s) in
          let s := set_par s (set_payload p (skipn k (payload p))) in
          let s := add s (On_stream (firstn k (payload p))) in
          match hresp p with
          | Hresp_payload_done =>
              let p := par s in
              let code := status (hd p) in
              let s := add s (On_finish (hd p) (payload p)) in
              let s := if close p then add s Shut_down else s in
              let s := if code =? 101 then set_ack s else s in
              (set_par s (next_message p), Some cs)
          | _ => (s, None)
          end
    end
  end.

(** http_client_session.cpp:21-114 [do_on_tcp_stream].  Every round of the loop but the last one consumes
    a call, so [fuel] is the number of calls and one more. *)
Fixpoint loop (L : limits) (A : application) (fuel : nat) (s : session) (cs : list call) : session :=
  match fuel with
  | O => s
  | S fuel =>
    if ack s then add s (On_upgraded cs)
    else if is_error (par s) then s
    else
      let again r := match r with (s, Some cs) => loop L A fuel s cs | (s, None) => s end in
      match hresp (par s) with
      | Hresp_new =>
        match parse L (par s) cs with
        | Thrown => fail s Exception
        | Undef => fail s Undefined_behaviour
        | Left p cs =>
            let s := set_par s p in
            if is_error p then add s Quick_shut_down
            else
              match hresp p with
              | Hresp_new => s
              | _ =>
                let s := add s (On_headers (hd p)) in
                let '(h, t) := a_headers A (trace s) (hd p) in
                let s := set_par s (set_hd p h) in
                match t with
                | Payload_connect => add (set_ack s) (On_upgraded cs)
                | _ => again (after_headers L A s cs)
                end
              end
        end
      | _ => again (after_headers L A s cs)
      end
  end.

(** An invocation of [do_on_tcp_stream]. http_client_session.cpp:21-114 *)
Definition receive (L : limits) (A : application) (s : session) (cs : list call) : session :=
  if gone s then s else loop L A (S (length cs)) s cs.

(** http_response_parser.cpp:104-118 *)
Definition new_parser : parser := mkP Ok no_headers [] Hresp_new false.
(** http_client_session.cpp:9-14 *)
Definition start : session := mkS false new_parser [] false.
(** Any number of calls of http_client_session.cpp:21-114. *)
Definition run (L : limits) (A : application) (s : session) (css : list (list call)) : session :=
  fold_left (receive L A) css s.
