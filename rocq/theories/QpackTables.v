(** The static table of QPACK, generated from quiche/src/h3/qpack/static_table.rs. *)
Require Import Verif.Base.
Require Import String Ascii.

Definition bytes (s : string) : list Z := map (fun c => Z.of_N (N_of_ascii c)) (list_ascii_of_string s).

(** STATIC_ENCODE_TABLE (h3/qpack/static_table.rs:34-212): by length of the name, the
    names, their values and the index of each *)
Definition static_encode_table : list (list (list Z * list (list Z * Z))) :=
  [[];
   [];
   [];
   [(bytes "age", [(bytes "0", 2)])];
   [(bytes "etag", [(bytes "", 7)]);
    (bytes "date", [(bytes "", 6)]);
    (bytes "link", [(bytes "", 11)]);
    (bytes "vary", [(bytes "accept-encoding", 59); (bytes "origin", 60)])];
   [(bytes "range", [(bytes "bytes=0-", 55)]);
    (bytes ":path", [(bytes "/", 1)])];
   [(bytes "cookie", [(bytes "", 5)]);
    (bytes "origin", [(bytes "", 90)]);
    (bytes "server", [(bytes "", 92)]);
    (bytes "accept", [(bytes "*/*", 29); (bytes "application/dns-message", 30)])];
   [(bytes "purpose", [(bytes "prefetch", 91)]);
    (bytes "referer", [(bytes "", 13)]);
    (bytes "alt-svc", [(bytes "clear", 83)]);
    (bytes ":status", [(bytes "103", 24); (bytes "200", 25); (bytes "304", 26); (bytes "404", 27); (bytes "503", 28); (bytes "100", 63); (bytes "204", 64); (bytes "206", 65); (bytes "302", 66); (bytes "400", 67); (bytes "403", 68); (bytes "421", 69); (bytes "425", 70); (bytes "500", 71)]);
    (bytes ":scheme", [(bytes "http", 22); (bytes "https", 23)]);
    (bytes ":method", [(bytes "CONNECT", 15); (bytes "DELETE", 16); (bytes "GET", 17); (bytes "HEAD", 18); (bytes "OPTIONS", 19); (bytes "POST", 20); (bytes "PUT", 21)])];
   [(bytes "location", [(bytes "", 12)]);
    (bytes "if-range", [(bytes "", 89)])];
   [(bytes "expect-ct", [(bytes "", 87)]);
    (bytes "forwarded", [(bytes "", 88)])];
   [(bytes "user-agent", [(bytes "", 95)]);
    (bytes ":authority", [(bytes "", 0)]);
    (bytes "set-cookie", [(bytes "", 14)]);
    (bytes "early-data", [(bytes "1", 86)])];
   [];
   [(bytes "content-type", [(bytes "application/dns-message", 44); (bytes "application/javascript", 45); (bytes "application/json", 46); (bytes "application/x-www-form-urlencoded", 47); (bytes "image/gif", 48); (bytes "image/jpeg", 49); (bytes "image/png", 50); (bytes "text/css", 51); (bytes "text/html; charset=utf-8", 52); (bytes "text/plain", 53); (bytes "text/plain;charset=utf-8", 54)])];
   [(bytes "last-modified", [(bytes "", 10)]);
    (bytes "accept-ranges", [(bytes "bytes", 32)]);
    (bytes "authorization", [(bytes "", 84)]);
    (bytes "if-none-match", [(bytes "", 9)]);
    (bytes "cache-control", [(bytes "max-age=0", 36); (bytes "max-age=2592000", 37); (bytes "max-age=604800", 38); (bytes "no-cache", 39); (bytes "no-store", 40); (bytes "public, max-age=31536000", 41)])];
   [(bytes "content-length", [(bytes "0", 4)])];
   [(bytes "accept-encoding", [(bytes "gzip, deflate, br", 31)]);
    (bytes "x-forwarded-for", [(bytes "", 96)]);
    (bytes "accept-language", [(bytes "", 72)]);
    (bytes "x-frame-options", [(bytes "deny", 97); (bytes "sameorigin", 98)])];
   [(bytes "content-encoding", [(bytes "br", 42); (bytes "gzip", 43)]);
    (bytes "x-xss-protection", [(bytes "1; mode=block", 62)])];
   [(bytes "if-modified-since", [(bytes "", 8)])];
   [];
   [(bytes "content-disposition", [(bytes "", 3)]);
    (bytes "timing-allow-origin", [(bytes "*", 93)])];
   [];
   [];
   [(bytes "x-content-type-options", [(bytes "nosniff", 61)])];
   [(bytes "content-security-policy", [(bytes "script-src 'none'; object-src 'none'; base-uri 'none'", 85)])];
   [];
   [(bytes "upgrade-insecure-requests", [(bytes "1", 94)]);
    (bytes "strict-transport-security", [(bytes "max-age=31536000", 56); (bytes "max-age=31536000; includesubdomains", 57); (bytes "max-age=31536000; includesubdomains; preload", 58)])];
   [];
   [(bytes "access-control-allow-origin", [(bytes "*", 35)])];
   [(bytes "access-control-allow-methods", [(bytes "get", 76); (bytes "get, post, options", 77); (bytes "options", 78)]);
    (bytes "access-control-allow-headers", [(bytes "cache-control", 33); (bytes "content-type", 34); (bytes "*", 75)])];
   [(bytes "access-control-expose-headers", [(bytes "content-length", 79)]);
    (bytes "access-control-request-method", [(bytes "get", 81); (bytes "post", 82)])];
   [(bytes "access-control-request-headers", [(bytes "content-type", 80)])];
   [];
   [(bytes "access-control-allow-credentials", [(bytes "FALSE", 73); (bytes "TRUE", 74)])]].

(** STATIC_DECODE_TABLE (h3/qpack/static_table.rs:214-323) *)
Definition static_decode_table : list (list Z * list Z) :=
  [(bytes ":authority", bytes "");
   (bytes ":path", bytes "/");
   (bytes "age", bytes "0");
   (bytes "content-disposition", bytes "");
   (bytes "content-length", bytes "0");
   (bytes "cookie", bytes "");
   (bytes "date", bytes "");
   (bytes "etag", bytes "");
   (bytes "if-modified-since", bytes "");
   (bytes "if-none-match", bytes "");
   (bytes "last-modified", bytes "");
   (bytes "link", bytes "");
   (bytes "location", bytes "");
   (bytes "referer", bytes "");
   (bytes "set-cookie", bytes "");
   (bytes ":method", bytes "CONNECT");
   (bytes ":method", bytes "DELETE");
   (bytes ":method", bytes "GET");
   (bytes ":method", bytes "HEAD");
   (bytes ":method", bytes "OPTIONS");
   (bytes ":method", bytes "POST");
   (bytes ":method", bytes "PUT");
   (bytes ":scheme", bytes "http");
   (bytes ":scheme", bytes "https");
   (bytes ":status", bytes "103");
   (bytes ":status", bytes "200");
   (bytes ":status", bytes "304");
   (bytes ":status", bytes "404");
   (bytes ":status", bytes "503");
   (bytes "accept", bytes "*/*");
   (bytes "accept", bytes "application/dns-message");
   (bytes "accept-encoding", bytes "gzip, deflate, br");
   (bytes "accept-ranges", bytes "bytes");
   (bytes "access-control-allow-headers", bytes "cache-control");
   (bytes "access-control-allow-headers", bytes "content-type");
   (bytes "access-control-allow-origin", bytes "*");
   (bytes "cache-control", bytes "max-age=0");
   (bytes "cache-control", bytes "max-age=2592000");
   (bytes "cache-control", bytes "max-age=604800");
   (bytes "cache-control", bytes "no-cache");
   (bytes "cache-control", bytes "no-store");
   (bytes "cache-control", bytes "public, max-age=31536000");
   (bytes "content-encoding", bytes "br");
   (bytes "content-encoding", bytes "gzip");
   (bytes "content-type", bytes "application/dns-message");
   (bytes "content-type", bytes "application/javascript");
   (bytes "content-type", bytes "application/json");
   (bytes "content-type", bytes "application/x-www-form-urlencoded");
   (bytes "content-type", bytes "image/gif");
   (bytes "content-type", bytes "image/jpeg");
   (bytes "content-type", bytes "image/png");
   (bytes "content-type", bytes "text/css");
   (bytes "content-type", bytes "text/html; charset=utf-8");
   (bytes "content-type", bytes "text/plain");
   (bytes "content-type", bytes "text/plain;charset=utf-8");
   (bytes "range", bytes "bytes=0-");
   (bytes "strict-transport-security", bytes "max-age=31536000");
   (bytes "strict-transport-security", bytes "max-age=31536000; includesubdomains");
   (bytes "strict-transport-security", bytes "max-age=31536000; includesubdomains; preload");
   (bytes "vary", bytes "accept-encoding");
   (bytes "vary", bytes "origin");
   (bytes "x-content-type-options", bytes "nosniff");
   (bytes "x-xss-protection", bytes "1; mode=block");
   (bytes ":status", bytes "100");
   (bytes ":status", bytes "204");
   (bytes ":status", bytes "206");
   (bytes ":status", bytes "302");
   (bytes ":status", bytes "400");
   (bytes ":status", bytes "403");
   (bytes ":status", bytes "421");
   (bytes ":status", bytes "425");
   (bytes ":status", bytes "500");
   (bytes "accept-language", bytes "");
   (bytes "access-control-allow-credentials", bytes "FALSE");
   (bytes "access-control-allow-credentials", bytes "TRUE");
   (bytes "access-control-allow-headers", bytes "*");
   (bytes "access-control-allow-methods", bytes "get");
   (bytes "access-control-allow-methods", bytes "get, post, options");
   (bytes "access-control-allow-methods", bytes "options");
   (bytes "access-control-expose-headers", bytes "content-length");
   (bytes "access-control-request-headers", bytes "content-type");
   (bytes "access-control-request-method", bytes "get");
   (bytes "access-control-request-method", bytes "post");
   (bytes "alt-svc", bytes "clear");
   (bytes "authorization", bytes "");
   (bytes "content-security-policy", bytes "script-src 'none'; object-src 'none'; base-uri 'none'");
   (bytes "early-data", bytes "1");
   (bytes "expect-ct", bytes "");
   (bytes "forwarded", bytes "");
   (bytes "if-range", bytes "");
   (bytes "origin", bytes "");
   (bytes "purpose", bytes "prefetch");
   (bytes "server", bytes "");
   (bytes "timing-allow-origin", bytes "*");
   (bytes "upgrade-insecure-requests", bytes "1");
   (bytes "user-agent", bytes "");
   (bytes "x-forwarded-for", bytes "");
   (bytes "x-frame-options", bytes "deny");
   (bytes "x-frame-options", bytes "sameorigin")].
