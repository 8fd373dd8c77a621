(** How libcurl is used: the options of src/http/http.c, and what libcurl makes of them. *)
From Coq Require Import String.
From Verif Require Import Base CString.
Notation length := List.length.
Open Scope list_scope.
Open Scope Z_scope.

(** ** libcurl's handle, as far as FORT sets it up *)
Record handle := {
  h_useragent : option (list Z); h_encoding : option (list Z); h_capath : option (list Z); h_url : option (list Z); h_errorbuffer : bool;
  h_follow : bool; h_maxredirs : Z;
  h_connect_ms : Z; h_timeout_ms : Z;       (* 0: five minutes, and no limit *)
  h_low_limit : Z; h_low_time : Z; h_maxsize : Z;
  h_verifyhost : Z; h_verifypeer : bool;
  h_get : bool; h_failonerror : bool; h_nosignal : bool;
  h_timevalue : Z; h_ifmodsince : bool
}.
(** curl_easy_init(): libcurl's defaults. *)
Definition curl_easy_init : handle :=
  {| h_useragent := None; h_encoding := None; h_capath := None; h_url := None; h_errorbuffer := false; h_follow := false; h_maxredirs := 30; h_connect_ms := 0; h_timeout_ms := 0;
     h_low_limit := 0; h_low_time := 0; h_maxsize := 0; h_verifyhost := 2; h_verifypeer := true; h_get := true; h_failonerror := false; h_nosignal := false;
     h_timevalue := 0; h_ifmodsince := false |}.
Inductive str_option := CURLOPT_USERAGENT | CURLOPT_ACCEPT_ENCODING | CURLOPT_CAPATH | CURLOPT_URL | CURLOPT_ERRORBUFFER.
Inductive long_option :=
| CURLOPT_FOLLOWLOCATION | CURLOPT_MAXREDIRS | CURLOPT_CONNECTTIMEOUT | CURLOPT_TIMEOUT | CURLOPT_LOW_SPEED_LIMIT | CURLOPT_LOW_SPEED_TIME | CURLOPT_MAXFILESIZE
| CURLOPT_SSL_VERIFYHOST | CURLOPT_SSL_VERIFYPEER | CURLOPT_HTTPGET | CURLOPT_FAILONERROR | CURLOPT_NOSIGNAL | CURLOPT_TIMEVALUE_LARGE | CURLOPT_TIMECONDITION.
(** The fields of a handle, changed. *)
Definition with_str (o : str_option) (v : list Z) (h : handle) : handle :=
  {| h_useragent := match o with CURLOPT_USERAGENT => Some v | _ => h_useragent h end;
     h_encoding := match o with CURLOPT_ACCEPT_ENCODING => Some v | _ => h_encoding h end;
     h_capath := match o with CURLOPT_CAPATH => Some v | _ => h_capath h end;
     h_url := match o with CURLOPT_URL => Some v | _ => h_url h end;
     h_errorbuffer := match o with CURLOPT_ERRORBUFFER => true | _ => h_errorbuffer h end;
     h_follow := h_follow h; h_maxredirs := h_maxredirs h; h_connect_ms := h_connect_ms h; h_timeout_ms := h_timeout_ms h; h_low_limit := h_low_limit h; h_low_time := h_low_time h;
     h_maxsize := h_maxsize h; h_verifyhost := h_verifyhost h; h_verifypeer := h_verifypeer h; h_get := h_get h; h_failonerror := h_failonerror h; h_nosignal := h_nosignal h;
     h_timevalue := h_timevalue h; h_ifmodsince := h_ifmodsince h |}.
Definition with_long (o : long_option) (v : Z) (h : handle) : handle :=
  {| h_useragent := h_useragent h; h_encoding := h_encoding h; h_capath := h_capath h; h_url := h_url h; h_errorbuffer := h_errorbuffer h;
     h_follow := match o with CURLOPT_FOLLOWLOCATION => negb (v =? 0) | _ => h_follow h end;
     h_maxredirs := match o with CURLOPT_MAXREDIRS => v | _ => h_maxredirs h end;
     h_connect_ms := match o with CURLOPT_CONNECTTIMEOUT => v * 1000 | _ => h_connect_ms h end;
     h_timeout_ms := match o with CURLOPT_TIMEOUT => v * 1000 | _ => h_timeout_ms h end;
     h_low_limit := match o with CURLOPT_LOW_SPEED_LIMIT => v | _ => h_low_limit h end;
     h_low_time := match o with CURLOPT_LOW_SPEED_TIME => v | _ => h_low_time h end;
     h_maxsize := match o with CURLOPT_MAXFILESIZE => v | _ => h_maxsize h end;
     h_verifyhost := match o with CURLOPT_SSL_VERIFYHOST => v | _ => h_verifyhost h end;
     h_verifypeer := match o with CURLOPT_SSL_VERIFYPEER => negb (v =? 0) | _ => h_verifypeer h end;
     h_get := match o with CURLOPT_HTTPGET => negb (v =? 0) | _ => h_get h end;
     h_failonerror := match o with CURLOPT_FAILONERROR => negb (v =? 0) | _ => h_failonerror h end;
     h_nosignal := match o with CURLOPT_NOSIGNAL => negb (v =? 0) | _ => h_nosignal h end;
     h_timevalue := match o with CURLOPT_TIMEVALUE_LARGE => v | _ => h_timevalue h end;
     h_ifmodsince := match o with CURLOPT_TIMECONDITION => v =? 1 | _ => h_ifmodsince h end |}.
(** curl_easy_setopt(): strings of up to 8000000 bytes; timeouts are kept in milliseconds, in an int; negative numbers mean nothing (except MAXREDIRS's -1).
    What libcurl refuses, it ignores. *)
Definition accepts_str (v : list Z) : bool := Z.of_nat (length v) <=? 8000000.
Definition accepts_long (o : long_option) (v : Z) : bool :=
  match o with
  | CURLOPT_CONNECTTIMEOUT | CURLOPT_TIMEOUT => (0 <=? v) && (v <=? 2147483)
  | CURLOPT_MAXREDIRS => -1 <=? v
  | CURLOPT_LOW_SPEED_LIMIT | CURLOPT_LOW_SPEED_TIME | CURLOPT_MAXFILESIZE => 0 <=? v
  | _ => true
  end.

(** src/http/http.c:54-67 [setopt_str]; [None] is NULL.  A refusal is a message on stderr, and nothing else (the messages aren't modelled). *)
Definition setopt_str (o : str_option) (value : option (list Z)) (h : handle) : handle :=
  match value with None => h | Some v => if accepts_str v then with_str o v h else h end.
(** src/http/http.c:69-79 [setopt_long]. *)
Definition setopt_long (o : long_option) (value : Z) (h : handle) : handle := if accepts_long o value then with_long o value h else h.

(** config_get_http_*(), config_get_max_redirs(). *)
Record http_config := {
  user_agent : list Z; max_redirs : Z; connect_timeout : Z; transfer_timeout : Z; low_speed_limit : Z; low_speed_time : Z; max_file_size : Z; ca_path : option (list Z)
}.

(** src/http/http.c:141-206 [http_easy_init]. *)
Definition http_easy_init (c : http_config) (ims : Z) : handle :=
  let result := curl_easy_init in
  let result := setopt_str CURLOPT_USERAGENT (Some (user_agent c)) result in
  let result := setopt_str CURLOPT_ACCEPT_ENCODING (Some []) result in
  let result := setopt_long CURLOPT_FOLLOWLOCATION 1 result in
  let result := setopt_long CURLOPT_MAXREDIRS (max_redirs c) result in
  let result := setopt_long CURLOPT_CONNECTTIMEOUT (connect_timeout c) result in
  let result := setopt_long CURLOPT_TIMEOUT (transfer_timeout c) result in
  let result := setopt_long CURLOPT_LOW_SPEED_LIMIT (low_speed_limit c) result in
  let result := setopt_long CURLOPT_LOW_SPEED_TIME (low_speed_time c) result in
  let result := setopt_long CURLOPT_MAXFILESIZE (max_file_size c) result in
  let result := setopt_long CURLOPT_SSL_VERIFYHOST 2 result in
  let result := setopt_long CURLOPT_SSL_VERIFYPEER 1 result in
  let result := setopt_str CURLOPT_CAPATH (ca_path c) result in
  let result := setopt_long CURLOPT_HTTPGET 1 result in
  let result := setopt_long CURLOPT_FAILONERROR 1 result in
  let result := setopt_str CURLOPT_ERRORBUFFER (Some []) result in
  let result := setopt_long CURLOPT_NOSIGNAL 1 result in
  if 0 <? ims then setopt_long CURLOPT_TIMECONDITION 1 (setopt_long CURLOPT_TIMEVALUE_LARGE ims result) else result.
(** src/http/http.c:272-354 [http_fetch], up to curl_easy_perform(). *)
Definition fetch_handle (c : http_config) (ims : Z) (src : list Z) : handle := setopt_str CURLOPT_URL (Some src) (http_easy_init c ims).

(** ** What libcurl does *)
Inductive answer := Redirect (location : list Z) | Response (code : Z) (document : list Z).
(** One request, as the network has it; times are in milliseconds. *)
Record exchange := {
  x_connect : Z;                        (* until the connection is up *)
  x_trusted : option (list Z) -> bool;  (* the server's certificate chains up to a CA of this directory (None: the system's) *)
  x_named : bool;                       (* it's a certificate for that host *)
  x_duration : Z;                       (* everything *)
  x_slow : Z -> Z;                      (* for how many seconds it stayed below so many bytes per second *)
  x_length : option Z;                  (* Content-Length *)
  x_answer : answer
}.
(** A request: its URL, and the date of If-Modified-Since. *)
Definition request := (list Z * option Z)%type.
Definition scheme_is (s : string) (u : list Z) : bool := list_eqb Z.eqb (cstr s) (firstn (length (cstr s)) u).
Definition is_https (u : list Z) : bool := scheme_is "https://" u.
(** CURLOPT_REDIR_PROTOCOLS's default. *)
Definition redirects_to (u : list Z) : bool := scheme_is "http://" u || scheme_is "https://" u || scheme_is "ftp://" u || scheme_is "ftps://" u.
(** A limit of 0 isn't one. *)
Definition exceeds (limit t : Z) : bool := (0 <? limit) && (limit <? t).
Record outcome := { o_result : Z; o_code : Z; o_document : list Z; o_requests : list request }.
Definition failed (result : Z) (sent : list request) : outcome := {| o_result := result; o_code := 0; o_document := []; o_requests := sent |}.
Section Network.
  Variable net : list Z -> option Z -> exchange.
  Variable h : handle.
  (** curl_easy_perform(); [more]: the redirects left; [spent]: the milliseconds. *)
  Fixpoint follow (more : nat) (spent : Z) (u : list Z) (sent : list request) : outcome :=
    let since := if h_ifmodsince h then Some (h_timevalue h) else None in
    let x := net u since in
    if exceeds (if h_connect_ms h =? 0 then 300000 else h_connect_ms h) (x_connect x) then failed 28 sent
    else if is_https u && h_verifypeer h && negb (x_trusted x (h_capath h)) then failed 60 sent
    else if is_https u && negb (h_verifyhost h =? 0) && negb (x_named x) then failed 60 sent
    else
      let sent := sent ++ [(u, since)] in
      let spent := spent + x_duration x in
      if exceeds (h_timeout_ms h) spent then failed 28 sent
      else if (0 <? h_low_limit h) && (0 <? h_low_time h) && (h_low_time h <=? x_slow x (h_low_limit h)) then failed 28 sent
      else
        match x_answer x with
        | Redirect location =>
            if h_follow h then
              match more with
              | O => failed 47 sent
              | S more => if redirects_to location then follow more spent location sent else failed 1 sent
              end
            else {| o_result := 0; o_code := 302; o_document := []; o_requests := sent |}
        | Response code document =>
            if h_failonerror h && (400 <=? code) then {| o_result := 22; o_code := code; o_document := []; o_requests := sent |}
            else if match x_length x with Some n => exceeds (h_maxsize h) n | None => false end then failed 63 sent
            else {| o_result := 0; o_code := code; o_document := document; o_requests := sent |}
        end.
  Definition curl_easy_perform : outcome :=
    match h_url h with
    | None => failed 3 []
    | Some u => follow (Z.to_nat (h_maxredirs h)) 0 u []
    end.
End Network.
Definition get (c : http_config) (ims : Z) (src : list Z) (net : list Z -> option Z -> exchange) : outcome := curl_easy_perform net (fetch_handle c ims src).
