(** The properties of the connections created through an HTTP proxy. *)
From Coq Require Import String.
From Verif Require Import Base CodecModel CodecSpec GreetModel HttpModel HttpSpec HttpProofs.
Open Scope string_scope.
Open Scope Z_scope.
Open Scope list_scope.

(** C162: the BEEP session starts after a positive reply, where that reply ends. *)
Theorem C162_only : forall host port handler px greet p s2,
  h_start (http_new host port handler px greet) = Some (p, s2) ->
  exists s line more, px = PUp s /\ is_2xx line /\ sdata s = line ++ more ++ sdata s2 /\
    h_sent (http_new host port handler px greet) = Some (connect_header host port).
Proof. exact only_after_2xx. Qed.
Print Assumptions C162_only.
Theorem C162_up : forall host port handler px greet,
  h_up (http_new host port handler px greet) = true ->
  exists p s2, h_start (http_new host port handler px greet) = Some (p, s2) /\ greet p s2 = true.
Proof. exact up_greeted. Qed.
Print Assumptions C162_up.
Theorem C162_start_partial : forall host port handler s greet status headers rest,
  never_again s -> sdata s = reply status headers ++ rest -> text status -> Forall text headers ->
  (List.length status < 1022)%nat -> Forall (fun h => (List.length h < 1022)%nat) headers -> is_2xx status ->
  exists s2, h_start (http_new host port handler (PUp s) greet) = Some ([], s2) /\
    never_again s2 /\ h_up (http_new host port handler (PUp s) greet) = greet [] s2 /\
    sdata s2 = match headers with [] => rest
               | _ :: hs => concat (map (fun h => h ++ [13; 10]) hs) ++ [13; 10] ++ rest end.
Proof. exact start_at. Qed.
Print Assumptions C162_start_partial.
Theorem C162_headers_refuted : exists s s2, never_again s /\ sdata s = reply w_200 [w_via] ++ w_rpy /\ is_2xx w_200 /\ text w_200 /\ text w_via /\
  h_start (http_new w_host w_port false (PUp s) (fun _ _ => true)) = Some ([], s2) /\ sdata s2 = [13; 10] ++ w_rpy.
Proof. exact header_left. Qed.
Print Assumptions C162_headers_refuted.
Example C162_case : h_start (http_new w_host w_port false (PUp [SData (reply w_200 []); SData w_rpy]) (fun _ _ => true)) = Some ([], [SData w_rpy]) /\
  is_2xx w_200 /\ ~ In 10 w_200.
Proof.
  split; [vm_compute; reflexivity|]. split; [exists 49, (asc "00 OK"); split; [right; reflexivity|reflexivity]|].
  intros I. vm_compute in I. intuition discriminate.
Qed.

(** C163: the caller learns the result, once. *)
Theorem C163_handler_partial : forall host port px greet,
  let r := http_new host port true px greet in
  h_ret r = None /\ h_flag r = false /\
  ((h_told r = [h_up r] /\ h_freed r = true) \/
   (h_told r = [] /\ h_freed r = false /\ h_up r = false /\ exists s line more, px = PUp s /\ sdata s = line ++ more /\ ~ is_2xx line)).
Proof. exact told_once. Qed.
Print Assumptions C163_handler_partial.
Theorem C163_sync : forall host port px greet,
  let r := http_new host port false px greet in h_ret r = Some (h_up r) /\ h_told r = [].
Proof. exact told_sync. Qed.
Print Assumptions C163_sync.
Theorem C163_negative : forall host port handler s greet status headers rest,
  never_again s -> sdata s = reply status headers ++ rest -> text status ->
  (List.length status < 1022)%nat -> ~ is_2xx status ->
  h_start (http_new host port handler (PUp s) greet) = None /\
  h_up (http_new host port handler (PUp s) greet) = false /\
  h_told (http_new host port handler (PUp s) greet) = [] /\
  h_freed (http_new host port handler (PUp s) greet) = false.
Proof. exact negative. Qed.
Print Assumptions C163_negative.
Theorem C163_handler_refuted : exists s, never_again s /\ sdata s = reply w_407 [] /\
  let r := http_new w_host w_port true (PUp s) (fun _ _ => true) in
  h_told r = [] /\ h_ret r = None /\ h_freed r = false.
Proof. exact never_told. Qed.
Print Assumptions C163_handler_refuted.
Example C163_case : h_told (http_new w_host w_port true (PUp [SData (reply w_200 [])]) (fun _ _ => true)) = [true] /\
  h_told (http_new w_host w_port true PNone (fun _ _ => true)) = [false] /\
  h_ret (http_new w_host w_port false (PUp [SData (reply w_407 [])]) (fun _ _ => true)) = Some false.
Proof. vm_compute. auto. Qed.

(** C164: vortex_http_connection_is_proxied tells the connections made through a proxy. *)
Theorem C164_flag_partial : forall host port handler px greet,
  h_up (http_new host port handler px greet) = true ->
  is_proxied (http_new host port handler px greet) = negb handler.
Proof. exact flagged. Qed.
Print Assumptions C164_flag_partial.
Theorem C164_handler_refuted : exists s,
  let r := http_new w_host w_port true (PUp s) (fun _ _ => true) in h_told r = [true] /\ is_proxied r = false.
Proof. exact not_flagged. Qed.
Print Assumptions C164_handler_refuted.
Theorem C164_down_refuted : exists px,
  let r := http_new w_host w_port false px (fun _ _ => true) in h_ret r = Some false /\ is_proxied r = true.
Proof. exact flagged_down. Qed.
Print Assumptions C164_down_refuted.
Example C164_case : is_proxied (http_new w_host w_port false (PUp [SData (reply w_200 [])]) (fun _ _ => true)) = true /\
  h_up (http_new w_host w_port false (PUp [SData (reply w_200 [])]) (fun _ _ => true)) = true.
Proof. vm_compute. auto. Qed.

(** C165: the request asks the proxy for the host given and nothing else. *)
Theorem C165_lines_partial : forall host port, ~ In 10 host -> ~ In 10 port ->
  lines (connect_header host port) = [first_line host port ++ [10]; second_line host port ++ [10]; [13; 10]].
Proof. exact request_lines. Qed.
Print Assumptions C165_lines_partial.
Theorem C165_lines_refuted : exists host, (List.length (lines (connect_header host w_port)) = 5)%nat.
Proof. exact injected. Qed.
Print Assumptions C165_lines_refuted.
Example C165_case : lines (connect_header w_host w_port) =
  [asc "CONNECT beep.example:602 HTTP/1.1" ++ [13; 10]; asc "Host: beep.example:602" ++ [13; 10]; [13; 10]].
Proof. vm_compute. reflexivity. Qed.
