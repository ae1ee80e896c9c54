(** Test vectors of /repo/converter/url_test.go, run on the model with the recalled package net/url. Generated; these are
    tests, not proofs of the properties. *)
From Coq Require Import List NArith Bool String.
From Verif Require Import Bytes NetUrl Url.
Import ListNotations.
Open Scope N_scope.
Open Scope list_scope.

Example url_0 : assemble_absolute_url go_url [] [32; 32; 101; 120; 97; 109; 112; 108; 101; 46; 99; 111; 109; 32; 32; 10; 32; 32] = (b "example.com").
Proof. vm_compute. reflexivity. Qed.
Example url_1 : assemble_absolute_url go_url [] (b "#") = (b "#").
Proof. vm_compute. reflexivity. Qed.
Example url_2 : assemble_absolute_url go_url [] (b "#heading") = (b "#heading").
Proof. vm_compute. reflexivity. Qed.
Example url_3 : assemble_absolute_url go_url [] (b "#my heading") = (b "#my%20heading").
Proof. vm_compute. reflexivity. Qed.
Example url_4 : assemble_absolute_url go_url [] (b "/page.html?key=val#hash") = (b "/page.html?key=val#hash").
Proof. vm_compute. reflexivity. Qed.
Example url_5 : assemble_absolute_url go_url (b "test.com") (b "/page.html?key=val#hash") = (b "http://test.com/page.html?key=val#hash").
Proof. vm_compute. reflexivity. Qed.
Example url_6 : assemble_absolute_url go_url (b "http://test.com") (b "/page.html?key=val#hash") = (b "http://test.com/page.html?key=val#hash").
Proof. vm_compute. reflexivity. Qed.
Example url_7 : assemble_absolute_url go_url (b "https://test.com") (b "/page.html?key=val#hash") = (b "https://test.com/page.html?key=val#hash").
Proof. vm_compute. reflexivity. Qed.
Example url_8 : assemble_absolute_url go_url (b "https://test.com/random_stuff") (b "/page.html?key=val#hash") = (b "https://test.com/page.html?key=val#hash").
Proof. vm_compute. reflexivity. Qed.
Example url_9 : assemble_absolute_url go_url (b "test.com") (b "data:image/gif;base64,R0lGODlhEAAQAMQAAORHHOVSKudfOulrSOp3WOyDZu6QdvCchPGolfO0o/XBs/fNwfjZ0frl3/zy7////wAAAAAAAAAAAAAAAAAAAAAAAAAAAAAAAAAAAAAAAAAAAAAAAAAAAAAAAAAAAAAAACH5BAkAABAALAAAAAAQABAAAAVVICSOZGlCQAosJ6mu7fiyZeKqNKToQGDsM8hBADgUXoGAiqhSvp5QAnQKGIgUhwFUYLCVDFCrKUE1lBavAViFIDlTImbKC5Gm2hB0SlBCBMQiB0UjIQA7") = (b "data:image/gif;base64,R0lGODlhEAAQAMQAAORHHOVSKudfOulrSOp3WOyDZu6QdvCchPGolfO0o/XBs/fNwfjZ0frl3/zy7////wAAAAAAAAAAAAAAAAAAAAAAAAAAAAAAAAAAAAAAAAAAAAAAAAAAAAAAAAAAAAAAACH5BAkAABAALAAAAAAQABAAAAVVICSOZGlCQAosJ6mu7fiyZeKqNKToQGDsM8hBADgUXoGAiqhSvp5QAnQKGIgUhwFUYLCVDFCrKUE1lBavAViFIDlTImbKC5Gm2hB0SlBCBMQiB0UjIQA7").
Proof. vm_compute. reflexivity. Qed.
Example url_10 : assemble_absolute_url go_url (b "test.com") (b "data:image/svg+xml,%3Csvg xmlns='http://www.w3.org/2000/svg' viewBox='0 0 56 56' width='56' height='56' %3E%3C/svg%3E") = (b "data:image/svg+xml,%3Csvg%20xmlns='http://www.w3.org/2000/svg'%20viewBox='0%200%2056%2056'%20width='56'%20height='56'%20%3E%3C/svg%3E").
Proof. vm_compute. reflexivity. Qed.
Example url_11 : assemble_absolute_url go_url (b "test.com") (b "slack://open?team=abc") = (b "slack://open?team=abc").
Proof. vm_compute. reflexivity. Qed.
Example url_12 : assemble_absolute_url go_url (b "test.com") (b "http://www.example.com") = (b "http://www.example.com").
Proof. vm_compute. reflexivity. Qed.
Example url_13 : assemble_absolute_url go_url (b "test.com") (b "https://www.example.com") = (b "https://www.example.com").
Proof. vm_compute. reflexivity. Qed.
Example url_14 : assemble_absolute_url go_url (b "test.com") (b "https://www.example.com?a=1&c=2&b=3&x=&y") = (b "https://www.example.com?a=1&c=2&b=3&x=&y").
Proof. vm_compute. reflexivity. Qed.
Example url_15 : assemble_absolute_url go_url [] (b "https://Open Demo") = (b "https://Open%20Demo").
Proof. vm_compute. reflexivity. Qed.
Example url_16 : assemble_absolute_url go_url [] (b "https://Open [foo](uri) Demo") = (b "https://Open%20%5Bfoo%5D%28uri%29%20Demo").
Proof. vm_compute. reflexivity. Qed.
Example url_17 : assemble_absolute_url go_url (b "test.com") (b "mailto:hi@example.com?subject=Mail&cc=someoneelse@example.com") = (b "mailto:hi@example.com?subject=Mail&cc=someoneelse%40example.com").
Proof. vm_compute. reflexivity. Qed.
Example url_18 : assemble_absolute_url go_url (b "test.com") [109; 97; 105; 108; 116; 111; 58; 104; 105; 64; 101; 120; 97; 109; 112; 108; 101; 46; 99; 111; 109; 63; 98; 111; 100; 121; 61; 72; 101; 108; 108; 111; 10; 74; 111; 104; 97; 110; 110; 101; 115] = (b "mailto:hi@example.com?body=Hello%0AJohannes").
Proof. vm_compute. reflexivity. Qed.
Example url_19 : assemble_absolute_url go_url (b "test.com") (b "mailto:hi@example.com?subject=Hello%20Johannes") = (b "mailto:hi@example.com?subject=Hello%20Johannes").
Proof. vm_compute. reflexivity. Qed.
Example url_20 : assemble_absolute_url go_url (b "test.com") (b "mailto:hi@example.com?subject=Greetings to Johannes") = (b "mailto:hi@example.com?subject=Greetings%20to%20Johannes").
Proof. vm_compute. reflexivity. Qed.
Example url_21 : assemble_absolute_url go_url (b "test.com") [109; 97; 105; 108; 116; 111; 58; 104; 105; 64; 101; 120; 97; 109; 112; 108; 101; 46; 99; 111; 109; 63; 115; 117; 98; 106; 101; 99; 116; 61; 83; 105; 101; 32; 107; 195; 182; 110; 110; 101; 110; 32; 103; 101; 114; 110; 32; 101; 105; 110; 101; 110; 32; 83; 99; 114; 101; 101; 110; 115; 104; 111; 116; 32; 97; 110; 104; 195; 164; 110; 103; 101; 110] = (b "mailto:hi@example.com?subject=Sie%20k%C3%B6nnen%20gern%20einen%20Screenshot%20anh%C3%A4ngen").
Proof. vm_compute. reflexivity. Qed.
Example url_22 : assemble_absolute_url go_url (b "test.com") (b "mailto:hi@example.com?body=Article: www.website.com/page.html") = (b "mailto:hi@example.com?body=Article%3A%20www.website.com%2Fpage.html").
Proof. vm_compute. reflexivity. Qed.
Example url_23 : assemble_absolute_url go_url [] (b "foo(and(bar)") = (b "foo%28and%28bar%29").
Proof. vm_compute. reflexivity. Qed.
Example url_24 : assemble_absolute_url go_url [] (b "[foo](uri)") = (b "%5Bfoo%5D%28uri%29").
Proof. vm_compute. reflexivity. Qed.
Example url_25 : parse_and_encode_query go_url [] = [].
Proof. vm_compute. reflexivity. Qed.
Example url_26 : parse_and_encode_query go_url (b "a=1") = (b "a=1").
Proof. vm_compute. reflexivity. Qed.
Example url_27 : parse_and_encode_query go_url (b "a=1&b=2&c=3") = (b "a=1&b=2&c=3").
Proof. vm_compute. reflexivity. Qed.
Example url_28 : parse_and_encode_query go_url (b "a=1&c=2&b=3") = (b "a=1&c=2&b=3").
Proof. vm_compute. reflexivity. Qed.
Example url_29 : parse_and_encode_query go_url (b "a=hello world&b=hello") = (b "a=hello+world&b=hello").
Proof. vm_compute. reflexivity. Qed.
Example url_30 : parse_and_encode_query go_url (b "key=%20") = (b "key=+").
Proof. vm_compute. reflexivity. Qed.
Example url_31 : parse_and_encode_query go_url (b "%20=value") = (b "+=value").
Proof. vm_compute. reflexivity. Qed.
Example url_32 : parse_and_encode_query go_url (b "key=+") = (b "key=+").
Proof. vm_compute. reflexivity. Qed.
Example url_33 : parse_and_encode_query go_url (b "+=value") = (b "+=value").
Proof. vm_compute. reflexivity. Qed.
Example url_34 : parse_and_encode_query go_url (b "a=1&b=%&c=hello world") = (b "a=1&b=%&c=hello+world").
Proof. vm_compute. reflexivity. Qed.
Example url_35 : parse_and_encode_query go_url (b "a=1&%=2&c=hello world") = (b "a=1&%=2&c=hello+world").
Proof. vm_compute. reflexivity. Qed.
