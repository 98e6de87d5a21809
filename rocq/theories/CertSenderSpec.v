(** Vocabulary for the reserved sender of certificates. *)
From Verif Require Import Base TxModel.
Local Open Scope N_scope.

(** The string whose hash is the reserved sender, and those whose hashes are the addresses of applications. *)
Definition cert_sender_string : bytes := str "special_addr" ++ str "CompactCertSender".
Definition app_string (app : N) : bytes := str "appID" ++ be 8 app.
Definition is_certificate (t : transaction) : Prop := exists c, fields t = CompactCert c.
