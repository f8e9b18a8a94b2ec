(** * Specification of the text of a status code (C41, C73) *)

From Verif Require Import Bytes.

(** the reason phrases *)
Definition reasons : list (bytes * bytes) := [
  (B "100", B "Continue");
  (B "101", B "Switching Protocols");
  (B "103", B "Early Hints");
  (B "200", B "OK");
  (B "201", B "Created");
  (B "202", B "Accepted");
  (B "203", B "Non-Authoritative Information");
  (B "204", B "No Content");
  (B "205", B "Reset Content");
  (B "206", B "Partial Content");
  (B "208", B "Already Reported");
  (B "226", B "IM Used");
  (B "300", B "Multiple Choices");
  (B "301", B "Moved Permanently");
  (B "302", B "Found");
  (B "303", B "See Other");
  (B "304", B "Not Modified");
  (B "305", B "Use Proxy");
  (B "306", B "Switch Proxy");
  (B "307", B "Temporary Redirect");
  (B "308", B "Permanent Redirect");
  (B "400", B "Bad Request");
  (B "401", B "Unauthorized");
  (B "402", B "Payment Required");
  (B "403", B "Forbidden");
  (B "404", B "Not Found");
  (B "405", B "Method Not Allowed");
  (B "406", B "Not Acceptable");
  (B "407", B "Proxy Authentication Required");
  (B "408", B "Request Time-out");
  (B "409", B "Conflict");
  (B "410", B "Gone");
  (B "411", B "Length Required");
  (B "412", B "Precondition Failed");
  (B "413", B "Payload Too Large");
  (B "414", B "URI Too Long");
  (B "415", B "Unsupported Media Type");
  (B "416", B "Range Not Satisfiable");
  (B "417", B "Expectation Failed");
  (B "421", B "Misdirected Request");
  (B "422", B "Unprocessable Entity");
  (B "423", B "Locked");
  (B "424", B "Failed Dependency");
  (B "425", B "Too Early");
  (B "426", B "Upgrade Required");
  (B "428", B "Precondition Required");
  (B "429", B "Too Many Requests");
  (B "431", B "Request Header Fields Too Large");
  (B "451", B "Unavailable For Legal Reasons");
  (B "500", B "Internal Server Error");
  (B "501", B "Not Implemented");
  (B "502", B "Bad Gateway");
  (B "503", B "Service Unavailable");
  (B "504", B "Gateway Time-out");
  (B "505", B "HTTP Version Not Supported");
  (B "506", B "Variant Also Negotiates (Experimental)");
  (B "510", B "Not Extended");
  (B "511", B "Network Authentication Required")].

(** the text that belongs to a code: its reason phrase, none for other codes *)
Inductive phrase (code : bytes) : bytes -> Prop :=
| ph_known t : In (code, t) reasons -> phrase code t
| ph_other : (forall t, ~ In (code, t) reasons) -> phrase code [].
