(** * What the ledger says about itself *)
From Verif Require Import Base Types Codec State Ledger Canister PrincipalText.

(** config.rs:9-10 *)
Definition TOKEN_NAME : string := "Trillion Cycles".
Definition TOKEN_SYMBOL : string := "TCYCLES".
(** config.rs:12, in pieces *)
Definition TOKEN_LOGO : string :=
  foldr String.append EmptyString [
    "data:image/svg+xml;base64,PHN2ZyB3aWR0aD0iMjgzIiBoZWlnaHQ9IjI4NCIgdmlld0JveD0iMCAwIDI4MyAyODQiIGZpbG"%string;
    "w9Im5vbmUiIHhtbG5zPSJodHRwOi8vd3d3LnczLm9yZy8yMDAwL3N2ZyI+CjxwYXRoIGQ9Ik0yODAuNDM2IDE0Mi4wNDRDMjgwLj"%string;
    "QzNiA2NS4zMTMxIDIxOC4yMzMgMy4xMTAzNSAxNDEuNTAyIDMuMTEwMzVDNjQuNzcwNyAzLjExMDM1IDIuNTY3ODcgNjUuMzEzMS"%string;
    "AyLjU2Nzg3IDE0Mi4wNDRDMi41Njc4NyAyMTguNzc1IDY0Ljc3MDcgMjgwLjk3OCAxNDEuNTAyIDI4MC45NzhDMjE4LjIzMyAyOD"%string;
    "AuOTc4IDI4MC40MzYgMjE4Ljc3NSAyODAuNDM2IDE0Mi4wNDRaIiBmaWxsPSJ3aGl0ZSIvPgo8cGF0aCBvcGFjaXR5PSIwLjIiIG"%string;
    "Q9Ik0xNDEuNTAxIDI1NC45NTVDMjAzLjg2IDI1NC45NTUgMjU0LjQxMiAyMDQuNDAzIDI1NC40MTIgMTQyLjA0NEMyNTQuNDEyID"%string;
    "c5LjY4NDYgMjAzLjg2IDI5LjEzMjQgMTQxLjUwMSAyOS4xMzI0Qzc5LjE0MTUgMjkuMTMyNCAyOC41ODk0IDc5LjY4NDYgMjguNT"%string;
    "g5NCAxNDIuMDQ0QzI4LjU4OTQgMjA0LjQwMyA3OS4xNDE1IDI1NC45NTUgMTQxLjUwMSAyNTQuOTU1WiIgZmlsbD0id2hpdGUiIH"%string;
    "N0cm9rZT0idXJsKCNwYWludDBfbGluZWFyXzIwMV8xNTQpIiBzdHJva2Utd2lkdGg9IjE0LjExMzkiLz4KPHBhdGggZD0iTTE1NC"%string;
    "4yMDQgMTIzLjY5NlY1MC4zMDM2TDk5LjE1OTcgMTYwLjM5MkgxMzUuODU2VjIzMy43ODRMMTkwLjkgMTIzLjY5NkgxNTQuMjA0Wi"%string;
    "IgZmlsbD0idXJsKCNwYWludDFfbGluZWFyXzIwMV8xNTQpIi8+CjxwYXRoIGQ9Ik0yODAuNDM2IDE0Mi4wNDRDMjgwLjQzNiA2NS"%string;
    "4zMTMxIDIxOC4yMzMgMy4xMTAzNSAxNDEuNTAyIDMuMTEwMzVDNjQuNzcwNyAzLjExMDM1IDIuNTY3ODcgNjUuMzEzMSAyLjU2Nz"%string;
    "g3IDE0Mi4wNDRDMi41Njc4NyAyMTguNzc1IDY0Ljc3MDcgMjgwLjk3OCAxNDEuNTAyIDI4MC45NzhDMjE4LjIzMyAyODAuOTc4ID"%string;
    "I4MC40MzYgMjE4Ljc3NSAyODAuNDM2IDE0Mi4wNDRaIiBzdHJva2U9InVybCgjcGFpbnQyX2xpbmVhcl8yMDFfMTU0KSIgc3Ryb2"%string;
    "tlLXdpZHRoPSI0LjQxMDYiLz4KPGRlZnM+CjxsaW5lYXJHcmFkaWVudCBpZD0icGFpbnQwX2xpbmVhcl8yMDFfMTU0IiB4MT0iMj"%string;
    "EuNTMyNCIgeTE9IjIyLjA3NTYiIHgyPSIyNjYuODk2IiB5Mj0iNzcuMDcwOCIgZ3JhZGllbnRVbml0cz0idXNlclNwYWNlT25Vc2"%string;
    "UiPgo8c3RvcCBzdG9wLWNvbG9yPSIjM0IwMEI5Ii8+CjxzdG9wIG9mZnNldD0iMSIgc3RvcC1jb2xvcj0iIzI1ODZCNiIvPgo8L2"%string;
    "xpbmVhckdyYWRpZW50Pgo8bGluZWFyR3JhZGllbnQgaWQ9InBhaW50MV9saW5lYXJfMjAxXzE1NCIgeDE9Ijk5LjE1OTciIHkxPS"%string;
    "I1MC4zMDM2IiB4Mj0iMTk2LjQ2NiIgeTI9IjYxLjIwODQiIGdyYWRpZW50VW5pdHM9InVzZXJTcGFjZU9uVXNlIj4KPHN0b3Agc3"%string;
    "RvcC1jb2xvcj0iIzNCMDBCOSIvPgo8c3RvcCBvZmZzZXQ9IjEiIHN0b3AtY29sb3I9IiMyNTg2QjYiLz4KPC9saW5lYXJHcmFkaW"%string;
    "VudD4KPGxpbmVhckdyYWRpZW50IGlkPSJwYWludDJfbGluZWFyXzIwMV8xNTQiIHgxPSIwLjM2MjU3MyIgeTE9IjAuOTA1MDUxIi"%string;
    "B4Mj0iMjg5LjAyNSIgeTI9IjY1LjYwNSIgZ3JhZGllbnRVbml0cz0idXNlclNwYWNlT25Vc2UiPgo8c3RvcCBzdG9wLWNvbG9yPS"%string;
    "IjM0IwMEI5Ii8+CjxzdG9wIG9mZnNldD0iMSIgc3RvcC1jb2xvcj0iIzI1ODZCNiIvPgo8L2xpbmVhckdyYWRpZW50Pgo8L2RlZn"%string;
    "M+Cjwvc3ZnPgo="%string].

(** main.rs:73-76, 78-81, 83-86, 93-96 *)
Definition icrc1_name : string := TOKEN_NAME.
Definition icrc1_symbol : string := TOKEN_SYMBOL.
Definition icrc1_decimals : N := DECIMALS.
Definition icrc1_minting_account : option account := None.

(** main.rs:108-138 [supported_standards]: names and addresses *)
Definition supported_standards : list (string * string) :=
  [("ICRC-1", "https://github.com/dfinity/ICRC-1/blob/main/standards/ICRC-1/README.md");
   ("ICRC-2", "https://github.com/dfinity/ICRC-1/blob/main/standards/ICRC-2/README.md");
   ("ICRC-3", "https://github.com/dfinity/ICRC-1/blob/main/standards/ICRC-3/README.md");
   ("ICRC-10", "https://github.com/dfinity/ICRC/blob/main/ICRCs/ICRC-10/ICRC-10.md");
   ("ICRC-103", "https://github.com/dfinity/ICRC/blob/main/ICRCs/ICRC-103/ICRC-103.md");
   ("ICRC-106", "https://github.com/dfinity/ICRC/blob/main/ICRCs/ICRC-106/ICRC-106.md")]%string.
(** main.rs:98-101, 103-106 *)
Definition icrc1_supported_standards : list (string * string) := supported_standards.
Definition icrc10_supported_standards : list (string * string) := supported_standards.

(** [icrc_ledger_types::icrc::generic_metadata_value::MetadataValue], without [Int] *)
Inductive meta_value := MetaNat (n : N) | MetaText (t : string) | MetaBlob (b : list byte).
(** main.rs:171-192 *)
Definition icrc1_metadata (s : state) : list (string * meta_value) :=
  [("icrc1:decimals"%string, MetaNat DECIMALS);
   ("icrc1:name"%string, MetaText TOKEN_NAME);
   ("icrc1:symbol"%string, MetaText TOKEN_SYMBOL);
   ("icrc1:fee"%string, MetaNat FEE);
   ("icrc1:max_memo_length"%string, MetaNat MAX_MEMO_LENGTH);
   ("dfn:max_blocks_per_request"%string, MetaNat (max_blocks_per_request (cfg s)));
   ("icrc1:logo"%string, MetaText TOKEN_LOGO)]
  ++ match index_id (cfg s) with
     | Some p => [("icrc106:index_principal"%string, MetaText (principal_text p));
                  ("dfn:index_id"%string, MetaBlob p)]
     | None => []
     end.
