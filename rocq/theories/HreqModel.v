(** Model of how an HTTP server receives requests: http/http_request_parser.cpp, [do_on_tcp_stream] of
    socket/http_server_session.cpp and [estimate_size] of http/http_c_headers.cpp, all in /repo/poseidon/src.
    The HTTPS session (socket/https_server_session.cpp) differs from it only in names.

    The external library http_parser is represented by the calls that it makes on the functions of
    [HTTP_Request_Parser::s_settings] for the octets that it is given.  The calls that it makes when it is
    told of the end of the stream ([http_parser_execute(..., "", 0)]) come after those. *)
From Coq Require Import ZArith List Bool String.
From Verif Require Import Base Text HnameModel NetrefModel.
Import ListNotations.
Open Scope list_scope.
Open Scope Z_scope.
Notation length := List.length.

(** [enum http_errno] of http_parser: what http_request_parser.cpp distinguishes. http_request_parser.cpp:230-247 *)
Inductive errno := HPE_OK | HPE_PAUSED | HPE_INVALID_VERSION | HPE_INVALID_METHOD | HPE_INVALID_TRANSFER_ENCODING
                 | HPE_INVALID_URL | HPE_INVALID_HOST | HPE_INVALID_PATH | HPE_OTHER.

(** The calls.  [Headers_complete] carries [http_method_str(ps->method)] and [http_should_keep_alive(ps)].
    [Fail] is an error which the library finds itself. http_request_parser.cpp:11-202 *)
Inductive call :=
| Url (s : list Z) | Field (s : list Z) | Value (s : list Z)
| Headers_complete (method : list Z) (keep_alive : bool)
| Body (s : list Z) | Message_complete | Fail (e : errno).

(** http_c_headers.hpp:13-33.  A value that has not been set is null (http_value.hpp:229-233). *)
Record headers := mkH { method : list Z; is_proxy : bool; is_ssl : bool; port : Z;
                        raw_host : list Z; raw_userinfo : list Z; raw_path : list Z; raw_query : list Z;
                        fields : list (list Z * option (list Z)) }.
(** http_c_headers.hpp:56-66 [clear] *)
Definition no_headers : headers := mkH [] false false 0 [] [] [] [] [].

(** [as_string] of a null value is empty; http_request_parser.cpp:63. *)
Definition value_text (v : option (list Z)) : list Z := match v with Some t => t | None => [] end.
(** http_c_headers.cpp:15-25 [estimate_size].  Sizes are integers without bounds, as memory
    cannot hold texts whose lengths add up to 2^64. *)
Definition fields_size (f : list (list Z * option (list Z))) : Z :=
  fold_right (fun x n => 4 + Z.of_nat (length (fst x)) + Z.of_nat (length (value_text (snd x))) + n) 0 f.
(** http_c_headers.cpp:15-25 *)
Definition estimate_size (h : headers) : Z :=
  Z.of_nat (length (raw_host h)) + Z.of_nat (length (raw_userinfo h))
  + Z.of_nat (length (raw_path h)) + Z.of_nat (length (raw_query h)) + fields_size (fields h).

(** http_request_parser.cpp:28, 81, 115, 136 *)
Definition set_host (h : headers) (t : list Z) : headers :=
  mkH (method h) (is_proxy h) (is_ssl h) (port h) t (raw_userinfo h) (raw_path h) (raw_query h) (fields h).
(** http_request_parser.cpp:41, 50, 65 *)
Definition set_fields (h : headers) (f : list (list Z * option (list Z))) : headers :=
  mkH (method h) (is_proxy h) (is_ssl h) (port h) (raw_host h) (raw_userinfo h) (raw_path h) (raw_query h) f.

(** http_request_parser.hpp:23-31, 38-39: the state of a message *)
Inductive stage := Hreq_new | Hreq_headers_done | Hreq_payload_done.
(** http_request_parser.hpp:13-32.  [verb] is [m_parser->method], which the library keeps. *)
Record parser := mkP { err : errno; hd : headers; payload : list Z; hreq : stage; close : bool; verb : list Z }.
(** A change of [m_headers]; http_request_parser.cpp:28-65. *)
Definition set_hd (p : parser) (h : headers) : parser := mkP (err p) h (payload p) (hreq p) (close p) (verb p).
(** A change of [http_errno]; http_request_parser.cpp:295, 320. *)
Definition set_err (p : parser) (e : errno) : parser := mkP e (hd p) (payload p) (hreq p) (close p) (verb p).
(** A change of [m_payload]; http_request_parser.cpp:179. *)
Definition set_payload (p : parser) (d : list Z) : parser := mkP (err p) (hd p) d (hreq p) (close p) (verb p).

(** [main.conf]: http_request_parser.cpp:205-218 *)
Record limits := mkL { max_header_length : Z; max_content_length : Z }.

(** What a call does: it returns, or it throws an exception; or the behaviour is undefined. http_request_parser.cpp:19-195 *)
Inductive outcome := Next (p : parser) | Throws | Undefined.

(** The last element of a list, and the list with another one in its place. [back]; http_request_parser.cpp:40, 63 *)
Fixpoint last_of {A} (l : list A) : option A :=
  match l with [] => None | [x] => Some x | _ :: r => last_of r end.
(** [mut_back]; http_request_parser.cpp:50, 65 *)
Fixpoint set_last {A} (l : list A) (x : A) : list A :=
  match l with [] => [] | [_] => [x] | y :: r => y :: set_last r x end.

(** http_request_parser.cpp:19-30 *)
Definition on_url (L : limits) (p : parser) (s : list Z) : outcome :=
  if max_header_length L <? estimate_size (hd p) + Z.of_nat (length s) then Throws
  else Next (set_hd p (set_host (hd p) (raw_host (hd p) ++ s))).

(** http_request_parser.cpp:35-52 *)
Definition on_header_field (L : limits) (p : parser) (s : list Z) : outcome :=
  let f := match last_of (fields (hd p)) with
           | Some (_, None) => fields (hd p)
           | _ => fields (hd p) ++ [([], None)]
           end in
  let h := set_fields (hd p) f in
  if max_header_length L <? estimate_size h + Z.of_nat (length s) then Throws
  else match last_of f with
       | Some (n, v) => Next (set_hd p (set_fields h (set_last f (n ++ s, v))))
       | None => Undefined
       end.

(** http_request_parser.cpp:54-67; [back()] of an empty vector is undefined *)
Definition on_header_value (L : limits) (p : parser) (s : list Z) : outcome :=
  if max_header_length L <? estimate_size (hd p) + Z.of_nat (length s) then Throws
  else match last_of (fields (hd p)) with
       | Some (n, v) => Next (set_hd p (set_fields (hd p) (set_last (fields (hd p)) (n, Some (value_text v ++ s)))))
       | None => Undefined
       end.

(** [cow_string::find("://")], [cow_string::find_of("@/")]. http_request_parser.cpp:95 *)
Definition starts (p s : list Z) : bool := if list_eq_dec Z.eq_dec (firstn (length p) s) p then true else false.
(** http_request_parser.cpp:95 *)
Fixpoint contains (p s : list Z) : bool :=
  starts p s || match s with [] => false | _ :: r => contains p r end.
(** http_request_parser.cpp:103 *)
Fixpoint find_of (cs s : list Z) : option nat :=
  match s with
  | [] => None
  | c :: r => if existsb (Z.eqb c) cs then Some O else option_map S (find_of cs r)
  end.

(** A part of the text; http_request_parser.cpp:115, 150-156. *)
Definition view_text (s : list Z) (v : option (nat * nat)) : list Z :=
  match v with Some (a, n) => firstn n (skipn a s) | None => [] end.

(** http_request_parser.cpp:130-144: the values of [Host:] headers; only whether there is one, and which, matters *)
Definition hosts (f : list (list Z * option (list Z))) : list (list Z) :=
  map (fun x => value_text (snd x)) (filter (fun x => equals (fst x) (txt "Host")) f).

(** http_request_parser.cpp:147-156: what is taken from the reference *)
Definition take_ref (h : headers) (uri : list Z) (w : netref) : headers :=
  let port' := match r_port w with Some (_, S _) => match r_num w with Some n => n | None => 0 end | _ => port h end in
  let path' := match view_text uri (r_path w) with [] => txt "/" | p => p end in
  let query' := match view_text uri (r_query w) with [] => raw_query h | q => q end in
  mkH (method h) (is_proxy h) (is_ssl h) port' (raw_host h) (raw_userinfo h) path' query' (fields h).

(** http_request_parser.cpp:79-156: the request target.  The headers are given as they are after line 81,
    without the URI in [raw_host]. *)
Definition analyse (h : headers) (uri : list Z) : headers * errno :=
  let '(h, uri, e) :=
    if (7 <=? length uri)%nat && equals (firstn 7 uri) (txt "http://") then
      (mkH (method h) true false 80 (raw_host h) (raw_userinfo h) (raw_path h) (raw_query h) (fields h), skipn 7 uri, HPE_OK)
    else if (8 <=? length uri)%nat && equals (firstn 8 uri) (txt "https://") then
      (mkH (method h) true true 443 (raw_host h) (raw_userinfo h) (raw_path h) (raw_query h) (fields h), skipn 8 uri, HPE_OK)
    else if contains (txt "://") uri then (h, uri, HPE_INVALID_URL)
    else (h, uri, HPE_OK) in
  match e with
  | HPE_OK =>
    if is_proxy h then
      let '(h, uri) :=
        match find_of (txt "@/") uri with
        | Some t => if nth t uri 0 =? 64 then
                      (mkH (method h) (is_proxy h) (is_ssl h) (port h) (raw_host h) (firstn t uri) (raw_path h) (raw_query h) (fields h),
                       skipn (t + 1) uri)
                    else (h, uri)
        | None => (h, uri)
        end in
      let '(w, n) := parse_ref uri in
      if negb (n =? length uri)%nat then (h, HPE_INVALID_HOST)
      else (take_ref (set_host h (view_text uri (r_host w))) uri w, HPE_OK)
    else
      if negb (nth 0 uri 0 =? 47) then (h, HPE_INVALID_PATH)
      else
        let uri := 97 :: uri in
        let '(w, n) := parse_ref uri in
        if negb (n =? length uri)%nat then (h, HPE_INVALID_HOST)
        else match hosts (fields h) with
             | [] => (h, HPE_INVALID_URL)
             | [v] => (take_ref (set_host h v) uri w, HPE_OK)
             | v :: _ => (set_host h v, HPE_INVALID_URL)
             end
  | e => (h, e)
  end.

(** http_request_parser.cpp:69-163.  [memccpy] fails unless the null character is among the first eight. *)
Definition on_headers_complete (p : parser) (m : list Z) (keep_alive : bool) : parser :=
  let h := hd p in
  let h := mkH (firstn 8 m) (is_proxy h) (is_ssl h) (port h) (raw_host h) (raw_userinfo h) (raw_path h) (raw_query h) (fields h) in
  if (8 <=? length m)%nat then mkP HPE_INVALID_METHOD h (payload p) (hreq p) (close p) m
  else
    let '(h, e) := analyse (set_host h []) (raw_host h) in
    match e with
    | HPE_OK => mkP HPE_PAUSED h (payload p) Hreq_headers_done (negb keep_alive) m
    | e => mkP e h (payload p) (hreq p) (close p) m
    end.

(** http_request_parser.cpp:165-186 *)
Definition accepts_payload (m : list Z) : bool :=
  existsb (fun v => if list_eq_dec Z.eq_dec m v then true else false) [txt "POST"; txt "PUT"; txt "PATCH"].
(** http_request_parser.cpp:165-186 *)
Definition on_body (L : limits) (p : parser) (s : list Z) : outcome :=
  if accepts_payload (verb p) then
    if max_content_length L <? Z.of_nat (length (payload p)) + Z.of_nat (length s) then Throws
    else Next (set_payload p (payload p ++ s))
  else Next p.

(** http_request_parser.cpp:188-195 *)
Definition on_message_complete (p : parser) : parser :=
  mkP HPE_PAUSED (hd p) (payload p) Hreq_payload_done (close p) (verb p).

(** http_request_parser.cpp:11-202 *)
Definition callback (L : limits) (p : parser) (c : call) : outcome :=
  match c with
  | Url s => on_url L p s
  | Field s => on_header_field L p s
  | Value s => on_header_value L p s
  | Headers_complete m k => Next (on_headers_complete p m k)
  | Body s => on_body L p s
  | Message_complete => Next (on_message_complete p)
  | Fail e => Next (set_err p (match e with HPE_OK | HPE_PAUSED => HPE_OTHER | e => e end))
  end.

(** [http_parser_execute]: it stops as soon as there is an error, of which a pause is one.  What it has not
    consumed is left. Called at http_request_parser.cpp:287, 291. *)
Inductive result := Left (p : parser) (cs : list call) | Thrown | Undef.
(** Called at http_request_parser.cpp:287, 291. *)
Fixpoint execute (L : limits) (p : parser) (cs : list call) : result :=
  match err p with
  | HPE_OK =>
      match cs with
      | [] => Left p []
      | c :: cs => match callback L p c with
                   | Next p => execute L p cs
                   | Throws => Thrown
                   | Undefined => Undef
                   end
      end
  | _ => Left p cs
  end.

(** http_request_parser.cpp:278-321 [parse_headers_from_stream], [parse_payload_from_stream]: both do the same
    once they have checked the state.  A pause is not an error. *)
Definition unpause (p : parser) : parser := match err p with HPE_PAUSED => set_err p HPE_OK | _ => p end.
(** http_request_parser.cpp:278-321 *)
Definition parse (L : limits) (p : parser) (cs : list call) : result :=
  match execute L p cs with Left p cs => Left (unpause p) cs | r => r end.

(** http_request_parser.hpp:116-126 [next_message] *)
Definition next_message (p : parser) : parser := mkP (err p) no_headers [] Hreq_new false (verb p).

(** http_request_parser.cpp:225-248 [http_status_from_error] *)
Definition status_of (e : errno) : Z :=
  match e with
  | HPE_OK | HPE_PAUSED => 200
  | HPE_INVALID_VERSION => 505
  | HPE_INVALID_METHOD => 405
  | HPE_INVALID_TRANSFER_ENCODING => 411
  | _ => 400
  end.

(** What the session tells the application: [do_on_http_request_headers],
    [do_on_http_request_payload_stream] with what the application took from the buffer,
    [do_on_http_request_finish], [do_on_http_request_error] and [do_on_http_upgraded_stream], for which the
    octets are represented by the calls that they would have caused.  [Exception] is an exception that leaves
    [do_on_tcp_stream]; the network driver closes the connection then. http_server_session.cpp:25, 48, 64, 70, 80, 96, 101, 107 *)
Inductive event :=
| On_headers (h : headers) (eot : bool) | On_stream (taken : list Z)
| On_finish (h : headers) (data : list Z) (eot : bool)
| On_error (head : bool) (status : Z) | On_upgraded (cs : list call) | Exception | Undefined_behaviour.

(** enums.hpp: [HTTP_Payload_Type]. http_server_session.cpp:71-88 *)
Inductive payload_type := Payload_normal | Payload_empty | Payload_connect.

(** An application answers according to all that it has been told.  [a_headers] is the answer of
    [do_on_http_request_headers] and what the headers, which it may change, have become.  [a_take] is the number of octets that
    [do_on_http_request_payload_stream] removes from the buffer.  [a_switched] says that it has sent
    a response with status 101 since.  Exceptions of the application are not modelled. http_server_session.cpp:70, 101, 174-175 *)
Record application := mkA { a_headers : list event -> headers -> headers * payload_type;
                            a_take : list event -> nat;
                            a_switched : list event -> bool }.

(** [gone] is set once the connection has been closed because of an exception. http_server_session.cpp:20-115 *)
Record session := mkS { ack : bool; par : parser; trace : list event; gone : bool }.
(** Not in the code: a call of a function of the application, http_server_session.cpp:25, 48, 64, 70, 80, 96, 101, 107. *)
Definition add (A : application) (s : session) (e : event) : session :=
  mkS (ack s || a_switched A (trace s ++ [e])) (par s) (trace s ++ [e]) (gone s).
(** Not in the code: a change of [m_req_parser], http_server_session.cpp:44, 92, 112. *)
Definition set_par (s : session) (p : parser) : session := mkS (ack s) p (trace s) (gone s).
(** Not in the code: an exception leaves http_server_session.cpp:20-115. *)
Definition fail (s : session) (e : event) : session := mkS (ack s) (par s) (trace s ++ [e]) true.
(** http_server_session.cpp:48, 64, 96 *)
Definition is_head (p : parser) : bool := if list_eq_dec Z.eq_dec (method (hd p)) (txt "HEAD") then true else false.
(** http_server_session.cpp:38, 46, 94 *)
Definition is_error (p : parser) : bool := match err p with HPE_OK => false | _ => true end.

(** http_server_session.cpp:91-112, the second half of the loop; [None] is [continue] with what is left *)
Definition after_headers (L : limits) (A : application) (s : session) (cs : list call) : session * option (list call) :=
  match hreq (par s) with
  | Hreq_payload_done => (set_par s (next_message (par s)), Some cs)
  | _ =>
    match parse L (par s) cs with
    | Thrown => (fail s Exception, None)
    | Undef => (fail s Undefined_behaviour, None)
    | Left p cs =>
        let s := set_par s p in
        if is_error p then (add A s (On_error (is_head p) (status_of (err p))), None)
        else
          let k := a_take A (trace s) in
          let s := set_par s (set_payload p (skipn k (payload p))) in
          let s := add A s (On_stream (firstn k (payload p))) in
          match hreq p with
          | Hreq_payload_done =>
              let p := par s in
              let s := add A s (On_finish (hd p) (payload p) (close p)) in
              (set_par s (next_message p), Some cs)
          | _ => (s, None)
          end
    end
  end.

(** http_server_session.cpp:20-115 [do_on_tcp_stream].  Every round of the loop but the last one consumes
    a call, so [fuel] is the number of calls and one more. *)
Fixpoint loop (L : limits) (A : application) (fuel : nat) (s : session) (cs : list call) : session :=
  match fuel with
  | O => s
  | S fuel =>
    if ack s then add A s (On_upgraded cs)
    else if is_error (par s) then s
    else
      let again r := match r with (s, Some cs) => loop L A fuel s cs | (s, None) => s end in
      match hreq (par s) with
      | Hreq_new =>
        match parse L (par s) cs with
        | Thrown => fail s Exception
        | Undef => fail s Undefined_behaviour
        | Left p cs =>
            let s := set_par s p in
            if is_error p then add A s (On_error (is_head p) (status_of (err p)))
            else
              match hreq p with
              | Hreq_new => s
              | _ =>
                let h := hd p in
                let h := if is_proxy h then h
                         else mkH (method h) (is_proxy h) false (port h) (raw_host h) (raw_userinfo h) (raw_path h) (raw_query h) (fields h) in
                let p := set_hd p h in
                let s := set_par s p in
                match raw_host h with
                | [] => add A s (On_error (is_head p) 400)
                | _ =>
                  let s := add A s (On_headers h (close p)) in
                  let '(h, t) := a_headers A (trace s) h in
                  let s := set_par s (set_hd p h) in
                  match t with
                  | Payload_connect => add A (mkS true (par s) (trace s) (gone s)) (On_upgraded cs)
                  | _ => again (after_headers L A s cs)
                  end
                end
              end
        end
      | _ => again (after_headers L A s cs)
      end
  end.

(** What happens to a session: an invocation of [do_on_tcp_stream], or a response with status 101 that another
    thread sends (http_server_session.cpp:171-175). *)
Inductive input := Data (cs : list call) | Switch.
(** http_server_session.cpp:20-115 *)
Definition receive (L : limits) (A : application) (s : session) (i : input) : session :=
  match i with
  | Data cs => if gone s then s else loop L A (S (length cs)) s cs
  | Switch => mkS true (par s) (trace s) (gone s)
  end.

(** http_request_parser.cpp:205-218 *)
Definition new_parser : parser := mkP HPE_OK no_headers [] Hreq_new false [].
(** http_server_session.cpp:10-13 *)
Definition start : session := mkS false new_parser [] false.
(** Any number of them; http_server_session.cpp:20-115. *)
Definition run (L : limits) (A : application) (s : session) (is : list input) : session :=
  fold_left (receive L A) is s.
