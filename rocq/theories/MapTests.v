(** * Replay of the unit tests of src/map.rs, src/parse.rs and src/kind.rs.
    GENERATED by tools/mktests.py; every check is closed by [vm_compute]. *)
From Coq Require Import String.
From Coq Require Import List Arith NArith Bool.
From Verif Require Import Str Path Json Types Parse Map.
Import ListNotations.

Definition process (fk : field) (j : json) (request : str) (names : list str)
  : pcomp (result (list str)) :=
  plet t := build_field fk j in
  match t with
  | Err e => PRet (Err e)
  | Ok root => field_process fk root request names
  end.

Example exports_field_map_test_0 :
  process FExports (JObj [((lit "./utils/"), (JObj [((lit "webpack"), (JStr (lit "./wpk/"))); ((lit "browser"), (JArr [(JStr (lit "lodash/")); (JStr (lit "./utils/"))])); ((lit "node"), (JArr [(JStr (lit "./utils/"))]))]))]) (lit "./utils/index.mjs") [(lit "browser"); (lit "webpack")] = PRet (Ok [(lit "./wpk/index.mjs")]) /\
  process FExports (JStr (lit "./main.js")) (lit ".") [] = PRet (Ok [(lit "./main.js")]) /\
  process FExports (JStr (lit "./main.js")) (lit "./main.js") [] = PRet (Ok []) /\
  process FExports (JStr (lit "./main.js")) (lit "./lib.js") [] = PRet (Ok []) /\
  process FExports (JArr [(JStr (lit "./a.js")); (JStr (lit "./b.js"))]) (lit ".") [] = PRet (Ok [(lit "./a.js"); (lit "./b.js")]) /\
  process FExports (JArr [(JStr (lit "./a.js")); (JStr (lit "./b.js"))]) (lit "./a.js") [] = PRet (Ok []) /\
  process FExports (JArr [(JStr (lit "./a.js")); (JStr (lit "./b.js"))]) (lit "./lib.js") [] = PRet (Ok []) /\
  process FExports (JObj [((lit "./a/"), (JStr (lit "./A/"))); ((lit "./a/b/c"), (JStr (lit "./c.js")))]) (lit "./a/b/d.js") [] = PRet (Ok [(lit "./A/b/d.js")]) /\
  process FExports (JObj [((lit "./a/"), (JStr (lit "./A/"))); ((lit "./a/b"), (JStr (lit "./b.js")))]) (lit "./a/c.js") [] = PRet (Ok [(lit "./A/c.js")]) /\
  process FExports (JObj [((lit "./a/"), (JStr (lit "./A/"))); ((lit "./a/b/c/d"), (JStr (lit "./c.js")))]) (lit "./a/b/d/c.js") [] = PRet (Ok [(lit "./A/b/d/c.js")]).
Proof. vm_compute. repeat split. Qed.

Example exports_field_map_test_1 :
  process FExports (JObj [((lit "./a/*"), (JStr (lit "./A/*"))); ((lit "./a/b/c"), (JStr (lit "./c.js")))]) (lit "./a/b/d.js") [] = PRet (Ok [(lit "./A/b/d.js")]) /\
  process FExports (JObj [((lit "./a/*"), (JStr (lit "./A/*"))); ((lit "./a/b"), (JStr (lit "./b.js")))]) (lit "./a/c.js") [] = PRet (Ok [(lit "./A/c.js")]) /\
  process FExports (JObj [((lit "./a/*"), (JStr (lit "./A/*"))); ((lit "./a/b/c/d"), (JStr (lit "./b.js")))]) (lit "./a/b/d/c.js") [] = PRet (Ok [(lit "./A/b/d/c.js")]) /\
  process FExports (JObj [((lit "./ab*"), (JStr (lit "./ab/*"))); ((lit "./abc*"), (JStr (lit "./abc/*"))); ((lit "./a*"), (JStr (lit "./a/*")))]) (lit "./abcd") [(lit "browser")] = PRet (Ok [(lit "./abc/d")]) /\
  process FExports (JObj [((lit "./ab*"), (JStr (lit "./ab/*"))); ((lit "./abc*"), (JStr (lit "./abc/*"))); ((lit "./a*"), (JStr (lit "./a/*")))]) (lit "./abcd") [] = PRet (Ok [(lit "./abc/d")]) /\
  process FExports (JObj [((lit "./ab*"), (JStr (lit "./ab/*"))); ((lit "./abc*"), (JStr (lit "./abc/*"))); ((lit "./a*"), (JStr (lit "./a/*")))]) (lit "./abcd/e") [(lit "browser")] = PRet (Ok [(lit "./abc/d/e")]) /\
  process FExports (JObj [((lit "./x/ab*"), (JStr (lit "./ab/*"))); ((lit "./x/abc*"), (JStr (lit "./abc/*"))); ((lit "./x/a*"), (JStr (lit "./a/*")))]) (lit "./x/abcd") [(lit "browser")] = PRet (Ok [(lit "./abc/d")]) /\
  process FExports (JObj [((lit "./x/ab*"), (JStr (lit "./ab/*"))); ((lit "./x/abc*"), (JStr (lit "./abc/*"))); ((lit "./x/a*"), (JStr (lit "./a/*")))]) (lit "./x/abcd/e") [(lit "browser")] = PRet (Ok [(lit "./abc/d/e")]) /\
  process FExports (JObj [((lit "browser"), (JObj [((lit "default"), (JStr (lit "./index.js")))]))]) (lit "./lib.js") [(lit "browser")] = PRet (Ok []) /\
  process FExports (JObj [((lit "browser"), (JObj [((lit "default"), (JStr (lit "./index.js")))]))]) (lit ".") [(lit "browser")] = PRet (Ok [(lit "./index.js")]).
Proof. vm_compute. repeat split. Qed.

Example exports_field_map_test_2 :
  process FExports (JObj [((lit "./foo/"), (JObj [((lit "import"), (JArr [(JStr (lit "./dist/")); (JStr (lit "./src/"))])); ((lit "webpack"), (JStr (lit "./wp/")))])); ((lit "."), (JStr (lit "./main.js")))]) (lit "./foo/test/file.js") [(lit "import"); (lit "webpack")] = PRet (Ok [(lit "./dist/test/file.js"); (lit "./src/test/file.js")]) /\
  process FExports (JObj [((lit "./foo/*"), (JObj [((lit "import"), (JArr [(JStr (lit "./dist/*")); (JStr (lit "./src/*"))])); ((lit "webpack"), (JStr (lit "./wp/*")))])); ((lit "."), (JStr (lit "./main.js")))]) (lit "./foo/test/file.js") [(lit "import"); (lit "webpack")] = PRet (Ok [(lit "./dist/test/file.js"); (lit "./src/test/file.js")]) /\
  process FExports (JObj [((lit "./timezones/"), (JStr (lit "./data/timezones/")))]) (lit "./timezones/pdt.mjs") [] = PRet (Ok [(lit "./data/timezones/pdt.mjs")]) /\
  process FExports (JObj [((lit "./"), (JStr (lit "./data/timezones/")))]) (lit "./timezones/pdt.mjs") [] = PRet (Ok [(lit "./data/timezones/timezones/pdt.mjs")]) /\
  process FExports (JObj [((lit "./*"), (JStr (lit "./data/timezones/*.mjs")))]) (lit "./timezones/pdt") [] = PRet (Ok [(lit "./data/timezones/timezones/pdt.mjs")]) /\
  process FExports (JObj [((lit "./lib/"), (JObj [((lit "browser"), (JArr [(JStr (lit "./browser/"))]))])); ((lit "./dist/index.js"), (JObj [((lit "node"), (JStr (lit "./index.js")))]))]) (lit "./dist/index.js") [(lit "browser")] = PRet (Ok []) /\
  process FExports (JObj [((lit "./lib/*"), (JObj [((lit "browser"), (JArr [(JStr (lit "./browser/*"))]))])); ((lit "./dist/index.js"), (JObj [((lit "node"), (JStr (lit "./index.js")))]))]) (lit "./dist/index.js") [(lit "browser")] = PRet (Ok []) /\
  process FExports (JObj [((lit "./lib/"), (JObj [((lit "browser"), (JArr [(JStr (lit "./browser/"))]))])); ((lit "./dist/index.js"), (JObj [((lit "node"), (JStr (lit "./index.js"))); ((lit "default"), (JStr (lit "./browser/index.js")))]))]) (lit "./dist/index.js") [(lit "browser")] = PRet (Ok [(lit "./browser/index.js")]) /\
  process FExports (JObj [((lit "./lib/*"), (JObj [((lit "browser"), (JArr [(JStr (lit "./browser/*"))]))])); ((lit "./dist/index.js"), (JObj [((lit "node"), (JStr (lit "./index.js"))); ((lit "default"), (JStr (lit "./browser/index.js")))]))]) (lit "./dist/index.js") [(lit "browser")] = PRet (Ok [(lit "./browser/index.js")]) /\
  process FExports (JObj [((lit "./dist/a"), (JStr (lit "./dist/index.js")))]) (lit "./dist/aaa") [] = PRet (Ok []).
Proof. vm_compute. repeat split. Qed.

Example exports_field_map_test_3 :
  process FExports (JObj [((lit "./dist/a/a/"), (JStr (lit "./dist/index.js")))]) (lit "./dist/a") [] = PRet (Ok []) /\
  process FExports (JObj [((lit "./dist/a/a/*"), (JStr (lit "./dist/index.js")))]) (lit "./dist/a") [] = PRet (Ok []) /\
  process FExports (JObj [((lit "."), (JStr (lit "./index.js")))]) (lit "./timezones/pdt.mjs") [] = PRet (Ok []) /\
  process FExports (JObj [((lit "./index.js"), (JStr (lit "./main.js")))]) (lit "./index.js") [] = PRet (Ok [(lit "./main.js")]) /\
  process FExports (JObj [((lit "./#foo"), (JStr (lit "./ok.js"))); ((lit "./module"), (JStr (lit "./ok.js"))); ([46; 47; 127881]%N, (JStr (lit "./ok.js"))); ((lit "./%F0%9F%8E%89"), (JStr (lit "./other.js"))); ((lit "./bar#foo"), (JStr (lit "./ok.js"))); ((lit "./#zapp/"), (JStr (lit "./"))); ((lit "./#zipp*"), (JStr (lit "./zzz*")))]) (lit "./#foo") [] = PRet (Ok [(lit "./ok.js")]) /\
  process FExports (JObj [((lit "./#foo"), (JStr (lit "./ok.js"))); ((lit "./module"), (JStr (lit "./ok.js"))); ([46; 47; 127881]%N, (JStr (lit "./ok.js"))); ((lit "./%F0%9F%8E%89"), (JStr (lit "./other.js"))); ((lit "./bar#foo"), (JStr (lit "./ok.js"))); ((lit "./#zapp/"), (JStr (lit "./"))); ((lit "./#zipp*"), (JStr (lit "./zzz*")))]) (lit "./bar#foo") [] = PRet (Ok [(lit "./ok.js")]) /\
  process FExports (JObj [((lit "./#foo"), (JStr (lit "./ok.js"))); ((lit "./module"), (JStr (lit "./ok.js"))); ([46; 47; 127881]%N, (JStr (lit "./ok.js"))); ((lit "./%F0%9F%8E%89"), (JStr (lit "./other.js"))); ((lit "./bar#foo"), (JStr (lit "./ok.js"))); ((lit "./#zapp/"), (JStr (lit "./"))); ((lit "./#zipp*"), (JStr (lit "./zzz*")))]) (lit "./#zapp/ok.js#abc") [] = PRet (Ok [(lit "./ok.js#abc")]) /\
  process FExports (JObj [((lit "./#foo"), (JStr (lit "./ok.js"))); ((lit "./module"), (JStr (lit "./ok.js"))); ([46; 47; 127881]%N, (JStr (lit "./ok.js"))); ((lit "./%F0%9F%8E%89"), (JStr (lit "./other.js"))); ((lit "./bar#foo"), (JStr (lit "./ok.js"))); ((lit "./#zapp/"), (JStr (lit "./"))); ((lit "./#zipp*"), (JStr (lit "./zzz*")))]) (lit "./#zapp/ok.js#abc") [] = PRet (Ok [(lit "./ok.js#abc")]) /\
  process FExports (JObj [((lit "./#foo"), (JStr (lit "./ok.js"))); ((lit "./module"), (JStr (lit "./ok.js"))); ([46; 47; 127881]%N, (JStr (lit "./ok.js"))); ((lit "./%F0%9F%8E%89"), (JStr (lit "./other.js"))); ((lit "./bar#foo"), (JStr (lit "./ok.js"))); ((lit "./#zapp/"), (JStr (lit "./"))); ((lit "./#zipp*"), (JStr (lit "./zzz*")))]) (lit "./#zapp/ok.js?abc") [] = PRet (Ok [(lit "./ok.js?abc")]) /\
  process FExports (JObj [((lit "./#foo"), (JStr (lit "./ok.js"))); ((lit "./module"), (JStr (lit "./ok.js"))); ([46; 47; 127881]%N, (JStr (lit "./ok.js"))); ((lit "./%F0%9F%8E%89"), (JStr (lit "./other.js"))); ((lit "./bar#foo"), (JStr (lit "./ok.js"))); ((lit "./#zapp/"), (JStr (lit "./"))); ((lit "./#zipp*"), (JStr (lit "./zzz*")))]) [46; 47; 35; 122; 97; 112; 112; 47; 127881; 46; 106; 115]%N [] = PRet (Ok [[46; 47; 127881; 46; 106; 115]%N]).
Proof. vm_compute. repeat split. Qed.

Example exports_field_map_test_4 :
  process FExports (JObj [((lit "./#foo"), (JStr (lit "./ok.js"))); ((lit "./module"), (JStr (lit "./ok.js"))); ([46; 47; 127881]%N, (JStr (lit "./ok.js"))); ((lit "./%F0%9F%8E%89"), (JStr (lit "./other.js"))); ((lit "./bar#foo"), (JStr (lit "./ok.js"))); ((lit "./#zapp/"), (JStr (lit "./"))); ((lit "./#zipp*"), (JStr (lit "./zzz*")))]) (lit "./#zapp/%F0%9F%8E%89.js") [] = PRet (Ok [(lit "./%F0%9F%8E%89.js")]) /\
  process FExports (JObj [((lit "./#foo"), (JStr (lit "./ok.js"))); ((lit "./module"), (JStr (lit "./ok.js"))); ([46; 47; 127881]%N, (JStr (lit "./ok.js"))); ((lit "./%F0%9F%8E%89"), (JStr (lit "./other.js"))); ((lit "./bar#foo"), (JStr (lit "./ok.js"))); ((lit "./#zapp/"), (JStr (lit "./"))); ((lit "./#zipp*"), (JStr (lit "./zzz*")))]) [46; 47; 127881]%N [] = PRet (Ok [(lit "./ok.js")]) /\
  process FExports (JObj [((lit "./#foo"), (JStr (lit "./ok.js"))); ((lit "./module"), (JStr (lit "./ok.js"))); ([46; 47; 127881]%N, (JStr (lit "./ok.js"))); ((lit "./%F0%9F%8E%89"), (JStr (lit "./other.js"))); ((lit "./bar#foo"), (JStr (lit "./ok.js"))); ((lit "./#zapp/"), (JStr (lit "./"))); ((lit "./#zipp*"), (JStr (lit "./zzz*")))]) (lit "./%F0%9F%8E%89") [] = PRet (Ok [(lit "./other.js")]) /\
  process FExports (JObj [((lit "./#foo"), (JStr (lit "./ok.js"))); ((lit "./module"), (JStr (lit "./ok.js"))); ([46; 47; 127881]%N, (JStr (lit "./ok.js"))); ((lit "./%F0%9F%8E%89"), (JStr (lit "./other.js"))); ((lit "./bar#foo"), (JStr (lit "./ok.js"))); ((lit "./#zapp/"), (JStr (lit "./"))); ((lit "./#zipp*"), (JStr (lit "./zzz*")))]) (lit "./module") [] = PRet (Ok [(lit "./ok.js")]) /\
  process FExports (JObj [((lit "./#foo"), (JStr (lit "./ok.js"))); ((lit "./module"), (JStr (lit "./ok.js"))); ([46; 47; 127881]%N, (JStr (lit "./ok.js"))); ((lit "./%F0%9F%8E%89"), (JStr (lit "./other.js"))); ((lit "./bar#foo"), (JStr (lit "./ok.js"))); ((lit "./#zapp/"), (JStr (lit "./"))); ((lit "./#zipp*"), (JStr (lit "./zzz*")))]) (lit "./module#foo") [] = PRet (Ok []) /\
  process FExports (JObj [((lit "./#foo"), (JStr (lit "./ok.js"))); ((lit "./module"), (JStr (lit "./ok.js"))); ([46; 47; 127881]%N, (JStr (lit "./ok.js"))); ((lit "./%F0%9F%8E%89"), (JStr (lit "./other.js"))); ((lit "./bar#foo"), (JStr (lit "./ok.js"))); ((lit "./#zapp/"), (JStr (lit "./"))); ((lit "./#zipp*"), (JStr (lit "./zzz*")))]) (lit "./module?foo") [] = PRet (Ok []) /\
  process FExports (JObj [((lit "./#foo"), (JStr (lit "./ok.js"))); ((lit "./module"), (JStr (lit "./ok.js"))); ([46; 47; 127881]%N, (JStr (lit "./ok.js"))); ((lit "./%F0%9F%8E%89"), (JStr (lit "./other.js"))); ((lit "./bar#foo"), (JStr (lit "./ok.js"))); ((lit "./#zapp/"), (JStr (lit "./"))); ((lit "./#zipp*"), (JStr (lit "./z*z*z*")))]) (lit "./#zippi") [] = PRet (Ok [(lit "./zizizi")]) /\
  process FExports (JObj [((lit "./a?b?c/"), (JStr (lit "./")))]) (lit "./a?b?c/d?e?f") [] = PRet (Ok [(lit "./d?e?f")]) /\
  process FExports (JObj [((lit "."), (JStr (lit "./dist/index.js")))]) (lit ".") [] = PRet (Ok [(lit "./dist/index.js")]) /\
  process FExports (JObj [((lit "./"), (JStr (lit "./"))); ((lit "./*"), (JStr (lit "./*"))); ((lit "./dist/index.js"), (JStr (lit "./dist/index.js")))]) (lit ".") [] = PRet (Ok []).
Proof. vm_compute. repeat split. Qed.

Example exports_field_map_test_5 :
  process FExports (JObj [((lit "./dist/"), (JStr (lit "./dist/"))); ((lit "./dist/*"), (JStr (lit "./dist/*"))); ((lit "./dist*"), (JStr (lit "./dist*"))); ((lit "./dist/index.js"), (JStr (lit "./dist/a.js")))]) (lit "./dist/index.js") [] = PRet (Ok [(lit "./dist/a.js")]) /\
  process FExports (JObj [((lit "./"), (JObj [((lit "browser"), (JArr [(JStr (lit "./browser/"))]))])); ((lit "./*"), (JObj [((lit "browser"), (JArr [(JStr (lit "./browser/*"))]))])); ((lit "./dist/index.js"), (JObj [((lit "browser"), (JStr (lit "./index.js")))]))]) (lit "./dist/index.js") [(lit "browser")] = PRet (Ok [(lit "./index.js")]) /\
  process FExports (JObj [((lit "./a?b?c/"), (JStr (lit "./")))]) (lit "./a?b?c/d?e?f") [] = PRet (Ok [(lit "./d?e?f")]) /\
  process FExports (JObj [((lit "./"), (JObj [((lit "browser"), (JArr [(JStr (lit "./browser/"))]))])); ((lit "./*"), (JObj [((lit "browser"), (JArr [(JStr (lit "./browser/*"))]))])); ((lit "./dist/index.js"), (JObj [((lit "node"), (JStr (lit "./node.js")))]))]) (lit "./dist/index.js") [(lit "browser")] = PRet (Ok []) /\
  process FExports (JObj [((lit "."), (JObj [((lit "browser"), (JStr (lit "./index.js"))); ((lit "node"), (JStr (lit "./src/node/index.js"))); ((lit "default"), (JStr (lit "./src/index.js")))]))]) (lit ".") [(lit "browser")] = PRet (Ok [(lit "./index.js")]) /\
  process FExports (JObj [((lit "."), (JObj [((lit "browser"), (JStr (lit "./index.js"))); ((lit "node"), (JStr (lit "./src/node/index.js"))); ((lit "default"), (JStr (lit "./src/index.js")))]))]) (lit ".") [] = PRet (Ok [(lit "./src/index.js")]) /\
  process FExports (JObj [((lit "."), (JStr (lit "./index")))]) (lit ".") [] = PRet (Ok [(lit "./index")]) /\
  process FExports (JObj [((lit "./index"), (JStr (lit "./index.js")))]) (lit "./index") [] = PRet (Ok [(lit "./index.js")]) /\
  process FExports (JObj [((lit "."), (JArr [(JObj [((lit "browser"), (JStr (lit "./browser.js")))]); (JObj [((lit "require"), (JStr (lit "./require.js")))]); (JObj [((lit "import"), (JStr (lit "./import.mjs")))])]))]) (lit ".") [] = PRet (Ok []) /\
  process FExports (JObj [((lit "."), (JArr [(JObj [((lit "browser"), (JStr (lit "./browser.js")))]); (JObj [((lit "require"), (JStr (lit "./require.js")))]); (JObj [((lit "import"), (JStr (lit "./import.mjs")))])]))]) (lit ".") [(lit "import")] = PRet (Ok [(lit "./import.mjs")]).
Proof. vm_compute. repeat split. Qed.

Example exports_field_map_test_6 :
  process FExports (JObj [((lit "."), (JArr [(JObj [((lit "browser"), (JStr (lit "./browser.js")))]); (JObj [((lit "require"), (JStr (lit "./require.js")))]); (JObj [((lit "import"), (JStr (lit "./import.mjs")))])]))]) (lit ".") [(lit "import"); (lit "require")] = PRet (Ok [(lit "./require.js"); (lit "./import.mjs")]) /\
  process FExports (JObj [((lit "."), (JArr [(JObj [((lit "browser"), (JStr (lit "./browser.js")))]); (JObj [((lit "require"), (JStr (lit "./require.js")))]); (JObj [((lit "import"), (JArr [(JStr (lit "./import.mjs")); (JStr (lit "./import.js"))]))])]))]) (lit ".") [(lit "import"); (lit "require")] = PRet (Ok [(lit "./require.js"); (lit "./import.mjs"); (lit "./import.js")]) /\
  process FExports (JObj [((lit "./timezones"), (JStr (lit "./data/timezones")))]) (lit "./timezones/pdt.mjs") [] = PRet (Ok []) /\
  process FExports (JObj [((lit "./timezones/pdt/"), (JStr (lit "./data/timezones/pdt/")))]) (lit "./timezones/pdt/index.mjs") [] = PRet (Ok [(lit "./data/timezones/pdt/index.mjs")]) /\
  process FExports (JObj [((lit "./timezones/pdt/*"), (JStr (lit "./data/timezones/pdt/*")))]) (lit "./timezones/pdt/index.mjs") [] = PRet (Ok [(lit "./data/timezones/pdt/index.mjs")]) /\
  process FExports (JObj [((lit "./"), (JStr (lit "./timezones/")))]) (lit "./pdt.mjs") [] = PRet (Ok [(lit "./timezones/pdt.mjs")]) /\
  process FExports (JObj [((lit "./*"), (JStr (lit "./timezones/*")))]) (lit "./pdt.mjs") [] = PRet (Ok [(lit "./timezones/pdt.mjs")]) /\
  process FExports (JObj [((lit "./"), (JStr (lit "./")))]) (lit "./timezones/pdt.mjs") [] = PRet (Ok [(lit "./timezones/pdt.mjs")]) /\
  process FExports (JObj [((lit "./*"), (JStr (lit "./*")))]) (lit "./timezones/pdt.mjs") [] = PRet (Ok [(lit "./timezones/pdt.mjs")]) /\
  process FExports (JObj [((lit "."), (JStr (lit "./")))]) (lit "./timezones/pdt.mjs") [] = PRet (Ok []).
Proof. vm_compute. repeat split. Qed.

Example exports_field_map_test_7 :
  process FExports (JObj [((lit "."), (JStr (lit "./*")))]) (lit "./timezones/pdt.mjs") [] = PRet (Ok []) /\
  process FExports (JObj [((lit "./"), (JStr (lit "./"))); ((lit "./dist/"), (JStr (lit "./lib/")))]) (lit "./dist/index.mjs") [] = PRet (Ok [(lit "./lib/index.mjs")]) /\
  process FExports (JObj [((lit "./*"), (JStr (lit "./*"))); ((lit "./dist/*"), (JStr (lit "./lib/*")))]) (lit "./dist/index.mjs") [] = PRet (Ok [(lit "./lib/index.mjs")]) /\
  process FExports (JObj [((lit "./dist/utils/"), (JStr (lit "./dist/utils/"))); ((lit "./dist/"), (JStr (lit "./lib/")))]) (lit "./dist/utils/index.js") [] = PRet (Ok [(lit "./dist/utils/index.js")]) /\
  process FExports (JObj [((lit "./dist/utils/*"), (JStr (lit "./dist/utils/*"))); ((lit "./dist/*"), (JStr (lit "./lib/*")))]) (lit "./dist/utils/index.js") [] = PRet (Ok [(lit "./dist/utils/index.js")]) /\
  process FExports (JObj [((lit "./dist/utils/index.js"), (JStr (lit "./dist/utils/index.js"))); ((lit "./dist/utils/"), (JStr (lit "./dist/utils/index.mjs"))); ((lit "./dist/"), (JStr (lit "./lib/")))]) (lit "./dist/utils/index.js") [] = PRet (Ok [(lit "./dist/utils/index.js")]) /\
  process FExports (JObj [((lit "./dist/utils/index.js"), (JStr (lit "./dist/utils/index.js"))); ((lit "./dist/utils/*"), (JStr (lit "./dist/utils/index.mjs"))); ((lit "./dist/*"), (JStr (lit "./lib/*")))]) (lit "./dist/utils/index.js") [] = PRet (Ok [(lit "./dist/utils/index.js")]) /\
  process FExports (JObj [((lit "./"), (JObj [((lit "browser"), (JStr (lit "./browser/")))])); ((lit "./dist/"), (JStr (lit "./lib/")))]) (lit "./dist/index.mjs") [(lit "browser")] = PRet (Ok [(lit "./lib/index.mjs")]) /\
  process FExports (JObj [((lit "./*"), (JObj [((lit "browser"), (JStr (lit "./browser/*")))])); ((lit "./dist/*"), (JStr (lit "./lib/*")))]) (lit "./dist/index.mjs") [(lit "browser")] = PRet (Ok [(lit "./lib/index.mjs")]) /\
  process FExports (JObj [((lit "./utils/"), (JObj [((lit "browser"), (JArr [(JStr (lit "lodash/")); (JStr (lit "./utils/"))])); ((lit "node"), (JArr [(JStr (lit "./utils-node/"))]))]))]) (lit "./utils/index.js") [(lit "browser")] = PRet (Ok [(lit "lodash/index.js"); (lit "./utils/index.js")]).
Proof. vm_compute. repeat split. Qed.

Example exports_field_map_test_8 :
  process FExports (JObj [((lit "./utils/*"), (JObj [((lit "browser"), (JArr [(JStr (lit "lodash/*")); (JStr (lit "./utils/*"))])); ((lit "node"), (JArr [(JStr (lit "./utils-node/*"))]))]))]) (lit "./utils/index.js") [(lit "browser")] = PRet (Ok [(lit "lodash/index.js"); (lit "./utils/index.js")]) /\
  process FExports (JObj [((lit "./utils/"), (JObj [((lit "webpack"), (JStr (lit "./wpk/"))); ((lit "browser"), (JArr [(JStr (lit "lodash/")); (JStr (lit "./utils/"))])); ((lit "node"), (JArr [(JStr (lit "./node/"))]))]))]) (lit "./utils/index.mjs") [] = PRet (Ok []) /\
  process FExports (JObj [((lit "./utils/*"), (JObj [((lit "webpack"), (JStr (lit "./wpk/*"))); ((lit "browser"), (JArr [(JStr (lit "lodash/*")); (JStr (lit "./utils/*"))])); ((lit "node"), (JArr [(JStr (lit "./node/*"))]))]))]) (lit "./utils/index.mjs") [] = PRet (Ok []) /\
  process FExports (JObj [((lit "./utils/"), (JObj [((lit "webpack"), (JStr (lit "./wpk/"))); ((lit "browser"), (JArr [(JStr (lit "lodash/")); (JStr (lit "./utils/"))])); ((lit "node"), (JArr [(JStr (lit "./utils/"))]))]))]) (lit "./utils/index.mjs") [(lit "browser"); (lit "webpack")] = PRet (Ok [(lit "./wpk/index.mjs")]) /\
  process FExports (JObj [((lit "./utils/*"), (JObj [((lit "webpack"), (JStr (lit "./wpk/*"))); ((lit "browser"), (JArr [(JStr (lit "lodash/*")); (JStr (lit "./utils/*"))])); ((lit "node"), (JArr [(JStr (lit "./utils/*"))]))]))]) (lit "./utils/index.mjs") [(lit "browser"); (lit "webpack")] = PRet (Ok [(lit "./wpk/index.mjs")]) /\
  process FExports (JObj [((lit "./utils/index"), (JStr (lit "./a/index.js")))]) (lit "./utils/index.mjs") [] = PRet (Ok []) /\
  process FExports (JObj [((lit "./utils/index.mjs"), (JStr (lit "./a/index.js")))]) (lit "./utils/index") [] = PRet (Ok []) /\
  process FExports (JObj [((lit "./utils/index"), (JObj [((lit "browser"), (JStr (lit "./a/index.js"))); ((lit "default"), (JStr (lit "./b/index.js")))]))]) (lit "./utils/index.mjs") [(lit "browser")] = PRet (Ok []) /\
  process FExports (JObj [((lit "./utils/index.mjs"), (JObj [((lit "browser"), (JStr (lit "./a/index.js"))); ((lit "default"), (JStr (lit "./b/index.js")))]))]) (lit "./utils/index") [(lit "browser")] = PRet (Ok []) /\
  process FExports (JObj [((lit "./../../utils/"), (JStr (lit "./dist/")))]) (lit "./../../utils/index") [] = PRet (Ok [(lit "./dist/index")]).
Proof. vm_compute. repeat split. Qed.

Example exports_field_map_test_9 :
  process FExports (JObj [((lit "./../../utils/*"), (JStr (lit "./dist/*")))]) (lit "./../../utils/index") [] = PRet (Ok [(lit "./dist/index")]) /\
  process FExports (JObj [((lit "./utils/"), (JStr (lit "./../src/")))]) (lit "./utils/index") [] = PRet (Ok [(lit "./../src/index")]) /\
  process FExports (JObj [((lit "./utils/*"), (JStr (lit "./../src/*")))]) (lit "./utils/index") [] = PRet (Ok [(lit "./../src/index")]) /\
  process FExports (JObj [((lit "./utils/index"), (JStr (lit "./src/../index.js")))]) (lit "./utils/index") [] = PRet (Ok [(lit "./src/../index.js")]) /\
  process FExports (JObj [((lit "./utils/../utils/index"), (JStr (lit "./src/../index.js")))]) (lit "./utils/index") [] = PRet (Ok []) /\
  process FExports (JObj [((lit "./utils/"), (JObj [((lit "browser"), (JStr (lit "./utils/../")))]))]) (lit "./utils/index") [(lit "browser")] = PRet (Ok [(lit "./utils/../index")]) /\
  process FExports (JObj [((lit "./"), (JStr (lit "./src/../../"))); ((lit "./dist/"), (JStr (lit "./dist/")))]) (lit "./dist/index") [(lit "browser")] = PRet (Ok [(lit "./dist/index")]) /\
  process FExports (JObj [((lit "./*"), (JStr (lit "./src/../../*"))); ((lit "./dist/*"), (JStr (lit "./dist/*")))]) (lit "./dist/index") [(lit "browser")] = PRet (Ok [(lit "./dist/index")]) /\
  process FExports (JObj [((lit "./utils/"), (JStr (lit "./dist/")))]) (lit "./utils/timezone/../../index") [] = PRet (Ok [(lit "./dist/timezone/../../index")]) /\
  process FExports (JObj [((lit "./utils/*"), (JStr (lit "./dist/*")))]) (lit "./utils/timezone/../../index") [] = PRet (Ok [(lit "./dist/timezone/../../index")]).
Proof. vm_compute. repeat split. Qed.

Example exports_field_map_test_10 :
  process FExports (JObj [((lit "./utils/"), (JStr (lit "./dist/")))]) (lit "./utils/timezone/../index") [] = PRet (Ok [(lit "./dist/timezone/../index")]) /\
  process FExports (JObj [((lit "./utils/*"), (JStr (lit "./dist/*")))]) (lit "./utils/timezone/../index") [] = PRet (Ok [(lit "./dist/timezone/../index")]) /\
  process FExports (JObj [((lit "./utils/"), (JStr (lit "./dist/target/")))]) (lit "./utils/../../index") [] = PRet (Ok [(lit "./dist/target/../../index")]) /\
  process FExports (JObj [((lit "./utils/*"), (JStr (lit "./dist/target/*")))]) (lit "./utils/../../index") [] = PRet (Ok [(lit "./dist/target/../../index")]) /\
  process FExports (JObj [((lit "./utils/"), (JObj [((lit "browser"), (JStr (lit "./node_modules/")))]))]) (lit "./utils/lodash/dist/index.js") [(lit "browser")] = PRet (Ok [(lit "./node_modules/lodash/dist/index.js")]) /\
  process FExports (JObj [((lit "./utils/*"), (JObj [((lit "browser"), (JStr (lit "./node_modules/*")))]))]) (lit "./utils/lodash/dist/index.js") [(lit "browser")] = PRet (Ok [(lit "./node_modules/lodash/dist/index.js")]) /\
  process FExports (JObj [((lit "./utils/"), (JStr (lit "./utils/../node_modules/")))]) (lit "./utils/lodash/dist/index.js") [(lit "browser")] = PRet (Ok [(lit "./utils/../node_modules/lodash/dist/index.js")]) /\
  process FExports (JObj [((lit "./utils/*"), (JStr (lit "./utils/../node_modules/*")))]) (lit "./utils/lodash/dist/index.js") [(lit "browser")] = PRet (Ok [(lit "./utils/../node_modules/lodash/dist/index.js")]) /\
  process FExports (JObj [((lit "./utils/"), (JObj [((lit "browser"), (JObj [((lit "webpack"), (JStr (lit "./"))); ((lit "default"), (JObj [((lit "node"), (JStr (lit "./node/")))]))]))]))]) (lit "./utils/index.js") [(lit "browser")] = PRet (Ok []) /\
  process FExports (JObj [((lit "./utils/*"), (JObj [((lit "browser"), (JObj [((lit "webpack"), (JStr (lit "./*"))); ((lit "default"), (JObj [((lit "node"), (JStr (lit "./node/*")))]))]))]))]) (lit "./utils/index.js") [(lit "browser")] = PRet (Ok []).
Proof. vm_compute. repeat split. Qed.

Example exports_field_map_test_11 :
  process FExports (JObj [((lit "./utils/"), (JObj [((lit "browser"), (JObj [((lit "webpack"), (JArr [(JStr (lit "./")); (JStr (lit "./node/"))])); ((lit "default"), (JObj [((lit "node"), (JStr (lit "./node/")))]))]))]))]) (lit "./utils/index.js") [(lit "browser"); (lit "webpack")] = PRet (Ok [(lit "./index.js"); (lit "./node/index.js")]) /\
  process FExports (JObj [((lit "./utils/*"), (JObj [((lit "browser"), (JObj [((lit "webpack"), (JArr [(JStr (lit "./*")); (JStr (lit "./node/*"))])); ((lit "default"), (JObj [((lit "node"), (JStr (lit "./node/*")))]))]))]))]) (lit "./utils/index.js") [(lit "browser"); (lit "webpack")] = PRet (Ok [(lit "./index.js"); (lit "./node/index.js")]) /\
  process FExports (JObj [((lit "./utils/"), (JObj [((lit "browser"), (JObj [((lit "webpack"), (JArr [(JStr (lit "./")); (JStr (lit "./node/"))])); ((lit "default"), (JObj [((lit "node"), (JStr (lit "./node/")))]))]))]))]) (lit "./utils/index.js") [(lit "webpack")] = PRet (Ok []) /\
  process FExports (JObj [((lit "./utils/*"), (JObj [((lit "browser"), (JObj [((lit "webpack"), (JArr [(JStr (lit "./*")); (JStr (lit "./node/*"))])); ((lit "default"), (JObj [((lit "node"), (JStr (lit "./node/*")))]))]))]))]) (lit "./utils/index.js") [(lit "webpack")] = PRet (Ok []) /\
  process FExports (JObj [((lit "./utils/"), (JObj [((lit "browser"), (JObj [((lit "webpack"), (JArr [(JStr (lit "./")); (JStr (lit "./node/"))])); ((lit "default"), (JObj [((lit "node"), (JStr (lit "./node/")))]))]))]))]) (lit "./utils/index.js") [(lit "node"); (lit "browser")] = PRet (Ok [(lit "./node/index.js")]) /\
  process FExports (JObj [((lit "./utils/*"), (JObj [((lit "browser"), (JObj [((lit "webpack"), (JArr [(JStr (lit "./*")); (JStr (lit "./node/*"))])); ((lit "default"), (JObj [((lit "node"), (JStr (lit "./node/*")))]))]))]))]) (lit "./utils/index.js") [(lit "node"); (lit "browser")] = PRet (Ok [(lit "./node/index.js")]) /\
  process FExports (JObj [((lit "./utils/"), (JObj [((lit "browser"), (JObj [((lit "webpack"), (JArr [(JStr (lit "./")); (JStr (lit "./node/"))])); ((lit "default"), (JObj [((lit "node"), (JObj [((lit "webpack"), (JArr [(JStr (lit "./wpck/"))]))]))]))]))]))]) (lit "./utils/index.js") [(lit "browser"); (lit "node")] = PRet (Ok []) /\
  process FExports (JObj [((lit "./utils/*"), (JObj [((lit "browser"), (JObj [((lit "webpack"), (JArr [(JStr (lit "./*")); (JStr (lit "./node/*"))])); ((lit "default"), (JObj [((lit "node"), (JObj [((lit "webpack"), (JArr [(JStr (lit "./wpck/*"))]))]))]))]))]))]) (lit "./utils/index.js") [(lit "browser"); (lit "node")] = PRet (Ok []) /\
  process FExports (JObj [((lit "./utils/"), (JObj [((lit "browser"), (JObj [((lit "webpack"), (JArr [(JStr (lit "./")); (JStr (lit "./node/"))])); ((lit "default"), (JObj [((lit "node"), (JObj [((lit "webpack"), (JArr [(JStr (lit "./wpck/"))]))]))]))]))]))]) (lit "./utils/index.js") [(lit "browser"); (lit "node"); (lit "webpack")] = PRet (Ok [(lit "./index.js"); (lit "./node/index.js")]) /\
  process FExports (JObj [((lit "./utils/*"), (JObj [((lit "browser"), (JObj [((lit "webpack"), (JArr [(JStr (lit "./*")); (JStr (lit "./node/*"))])); ((lit "default"), (JObj [((lit "node"), (JObj [((lit "webpack"), (JArr [(JStr (lit "./wpck/*"))]))]))]))]))]))]) (lit "./utils/index.js") [(lit "browser"); (lit "node"); (lit "webpack")] = PRet (Ok [(lit "./index.js"); (lit "./node/index.js")]).
Proof. vm_compute. repeat split. Qed.

Example exports_field_map_test_12 :
  process FExports (JObj [((lit "./a.js"), (JObj [((lit "abc"), (JObj [((lit "def"), (JStr (lit "./x.js")))])); ((lit "ghi"), (JStr (lit "./y.js")))]))]) (lit "./a.js") [(lit "abc"); (lit "ghi")] = PRet (Ok [(lit "./y.js")]) /\
  process FExports (JObj [((lit "./a.js"), (JObj [((lit "abc"), (JObj [((lit "def"), (JStr (lit "./x.js"))); ((lit "default"), (JArr []))])); ((lit "ghi"), (JStr (lit "./y.js")))]))]) (lit "./a.js") [(lit "abc"); (lit "ghi")] = PRet (Ok []) /\
  process FExports (JObj [((lit "./utils/"), (JObj [((lit "browser"), (JStr (lit "../this/")))]))]) (lit "./utils/index") [(lit "browser")] = PRet (Err (lit "Export should be relative path and start with ""./"", but got ../this/")) /\
  process FExports (JObj [((lit "./utils/*"), (JObj [((lit "browser"), (JStr (lit "../this/*")))]))]) (lit "./utils/index") [(lit "browser")] = PRet (Err (lit "Export should be relative path and start with ""./"", but got ../this/*")) /\
  process FExports (JObj [((lit "."), (JObj [((lit "default"), (JStr (lit "./src/index.js"))); ((lit "browser"), (JStr (lit "./index.js"))); ((lit "node"), (JStr (lit "./src/node/index.js")))]))]) (lit ".") [(lit "browser")] = PRet (Err (lit "Default condition should be last one")) /\
  process FExports (JObj [((lit "./*"), (JStr (lit ".")))]) (lit "./timezones/pdt.mjs") [] = PRet (Err (lit "Export should be relative path and start with ""./"", but got .")) /\
  process FExports (JObj [((lit "./"), (JStr (lit ".")))]) (lit "./timezones/pdt.mjs") [] = PRet (Err (lit "Export should be relative path and start with ""./"", but got .")) /\
  process FExports (JObj [((lit "./timezones/"), (JStr (lit "./data/timezones")))]) (lit "./timezones/pdt.mjs") [] = PRet (Err (lit "Expected ./data/timezones is folder mapping")) /\
  process FExports (JObj [((lit "./node"), (JStr (lit "./node.js"))); ((lit "browser"), (JObj [((lit "default"), (JStr (lit "./index.js")))]))]) (lit ".") [(lit "browser")] = PRet (Err (lit "Export field key can't mixed relative path and conditional object")) /\
  process FExports (JObj [((lit "browser"), (JObj [((lit "default"), (JStr (lit "./index.js")))])); ((lit "./node"), (JStr (lit "./node.js")))]) (lit ".") [(lit "browser")] = PRet (Err (lit "Export field key can't mixed relative path and conditional object")).
Proof. vm_compute. repeat split. Qed.

Example exports_field_map_test_13 :
  process FExports (JObj [((lit "/utils/"), (JStr (lit "./a/")))]) (lit "./utils/index.mjs") [] = PRet (Err (lit "Export field key should be relative path and start with ""./"", but got /utils/")) /\
  process FExports (JObj [((lit "./utils/"), (JStr (lit "/a/")))]) (lit "./utils/index.mjs") [] = PRet (Err (lit "Export should be relative path and start with ""./"", but got /a/")) /\
  process FExports (JObj [((lit "./utils/"), (JStr (lit "./a/")))]) (lit "/utils/index.mjs") [] = PRet (Err (lit "Request should be relative path and start with '.', but got /utils/index.mjs")) /\
  process FExports (JObj [((lit "./utils/"), (JObj [((lit "browser"), (JStr (lit "./a/"))); ((lit "default"), (JStr (lit "./b/")))]))]) (lit "/utils/index.mjs") [(lit "browser")] = PRet (Err (lit "Request should be relative path and start with '.', but got /utils/index.mjs")) /\
  process FExports (JObj [((lit "./utils/"), (JObj [((lit "browser"), (JStr (lit "./a/"))); ((lit "default"), (JStr (lit "./b/")))]))]) (lit "/utils/index.mjs/") [(lit "browser")] = PRet (Err (lit "Request should be relative path and start with '.', but got /utils/index.mjs/")) /\
  process FExports (JObj [((lit "./utils/"), (JObj [((lit "browser"), (JStr (lit "./a/"))); ((lit "default"), (JStr (lit "./b/")))]))]) (lit "../utils/index.mjs") [(lit "browser")] = PRet (Err (lit "Request should be relative path and start with '.', but got ../utils/index.mjs")) /\
  process FExports (JObj [((lit "../../utils/"), (JStr (lit "./dist/")))]) (lit "../../utils/index") [] = PRet (Err (lit "Export field key should be relative path and start with ""./"", but got ../../utils/")) /\
  process FExports (JObj [((lit "../../utils/*"), (JStr (lit "./dist/*")))]) (lit "../../utils/index") [] = PRet (Err (lit "Export field key should be relative path and start with ""./"", but got ../../utils/*")) /\
  process FExports (JObj [((lit "./utils/"), (JStr (lit "../src/")))]) (lit "./utils/index") [] = PRet (Err (lit "Export should be relative path and start with ""./"", but got ../src/")) /\
  process FExports (JObj [((lit "./utils/*"), (JStr (lit "../src/*")))]) (lit "./utils/index") [] = PRet (Err (lit "Export should be relative path and start with ""./"", but got ../src/*")).
Proof. vm_compute. repeat split. Qed.

Example exports_field_map_test_14 :
  process FExports (JObj [((lit "/utils/"), (JObj [((lit "browser"), (JStr (lit "./a/"))); ((lit "default"), (JStr (lit "./b/")))]))]) (lit "./utils/index.mjs") [(lit "browser")] = PRet (Err (lit "Export field key should be relative path and start with ""./"", but got /utils/")) /\
  process FExports (JObj [((lit "./utils/"), (JObj [((lit "browser"), (JStr (lit "/a/"))); ((lit "default"), (JStr (lit "/b/")))]))]) (lit "./utils/index.mjs") [(lit "browser")] = PRet (Err (lit "Export should be relative path and start with ""./"", but got /a/")) /\
  process FExports (JObj [((lit "./utils/*"), (JObj [((lit "browser"), (JStr (lit "/a/"))); ((lit "default"), (JStr (lit "/b/")))]))]) (lit "./utils/index.mjs") [(lit "browser")] = PRet (Err (lit "Export should be relative path and start with ""./"", but got /a/")).
Proof. vm_compute. repeat split. Qed.

Example imports_field_map_test_0 :
  process FImports (JObj [((lit "#abc/"), (JObj [((lit "import"), (JArr [(JStr (lit "./dist/")); (JStr (lit "./src/"))])); ((lit "webpack"), (JStr (lit "./wp/")))])); ((lit "#abc"), (JStr (lit "./main.js")))]) (lit "#abc/test/file.js") [(lit "import"); (lit "webpack")] = PRet (Ok [(lit "./dist/test/file.js"); (lit "./src/test/file.js")]) /\
  process FImports (JObj [((lit "#1/timezones/"), (JStr (lit "./data/timezones/")))]) (lit "#1/timezones/pdt.mjs") [] = PRet (Ok [(lit "./data/timezones/pdt.mjs")]) /\
  process FImports (JObj [((lit "#aaa/"), (JStr (lit "./data/timezones/"))); ((lit "#a/"), (JStr (lit "./data/timezones/")))]) (lit "#a/timezones/pdt.mjs") [] = PRet (Ok [(lit "./data/timezones/timezones/pdt.mjs")]) /\
  process FImports (JObj [((lit "#a/lib/"), (JObj [((lit "browser"), (JArr [(JStr (lit "./browser/"))]))])); ((lit "#a/dist/index.js"), (JObj [((lit "node"), (JStr (lit "./index.js")))]))]) (lit "#a/dist/index.js") [(lit "browser")] = PRet (Ok []) /\
  process FImports (JObj [((lit "#a/lib/"), (JObj [((lit "browser"), (JArr [(JStr (lit "./browser/"))]))])); ((lit "#a/dist/index.js"), (JObj [((lit "node"), (JStr (lit "./index.js"))); ((lit "default"), (JStr (lit "./browser/index.js")))]))]) (lit "#a/dist/index.js") [(lit "browser")] = PRet (Ok [(lit "./browser/index.js")]) /\
  process FImports (JObj [((lit "#a/dist/a"), (JStr (lit "./dist/index.js")))]) (lit "#a/dist/aaa") [] = PRet (Ok []) /\
  process FImports (JObj [((lit "#a/a/a/"), (JStr (lit "./dist/index.js")))]) (lit "#a/a/a") [] = PRet (Ok []) /\
  process FImports (JObj [((lit "#a/a/a/"), (JStr (lit "./dist/index.js")))]) (lit "#a/a/a") [] = PRet (Ok []) /\
  process FImports (JObj [((lit "#a"), (JStr (lit "./index.js")))]) (lit "#a/timezones/pdt.mjs") [] = PRet (Ok []) /\
  process FImports (JObj [((lit "#a/index.js"), (JStr (lit "./main.js")))]) (lit "#a/index.js") [] = PRet (Ok [(lit "./main.js")]).
Proof. vm_compute. repeat split. Qed.

Example imports_field_map_test_1 :
  process FImports (JObj [((lit "#a/#foo"), (JStr (lit "./ok.js"))); ((lit "#a/module"), (JStr (lit "./ok.js"))); ([35; 97; 47; 127881]%N, (JStr (lit "./ok.js"))); ((lit "#a/%F0%9F%8E%89"), (JStr (lit "./other.js"))); ((lit "#a/bar#foo"), (JStr (lit "./ok.js"))); ((lit "#a/#zapp/"), (JStr (lit "./")))]) (lit "#a/#foo") [] = PRet (Ok [(lit "./ok.js")]) /\
  process FImports (JObj [((lit "#a/#foo"), (JStr (lit "./ok.js"))); ((lit "#a/module"), (JStr (lit "./ok.js"))); ([35; 97; 47; 127881]%N, (JStr (lit "./ok.js"))); ((lit "#a/%F0%9F%8E%89"), (JStr (lit "./other.js"))); ((lit "#a/bar#foo"), (JStr (lit "./ok.js"))); ((lit "#a/#zapp/"), (JStr (lit "./")))]) (lit "#a/bar#foo") [] = PRet (Ok [(lit "./ok.js")]) /\
  process FImports (JObj [((lit "#a/#foo"), (JStr (lit "./ok.js"))); ((lit "#a/module"), (JStr (lit "./ok.js"))); ([35; 97; 47; 127881]%N, (JStr (lit "./ok.js"))); ((lit "#a/%F0%9F%8E%89"), (JStr (lit "./other.js"))); ((lit "#a/bar#foo"), (JStr (lit "./ok.js"))); ((lit "#a/#zapp/"), (JStr (lit "./")))]) (lit "#a/#zapp/ok.js#abc") [] = PRet (Ok [(lit "./ok.js#abc")]) /\
  process FImports (JObj [((lit "#a/#foo"), (JStr (lit "./ok.js"))); ((lit "#a/module"), (JStr (lit "./ok.js"))); ([35; 97; 47; 127881]%N, (JStr (lit "./ok.js"))); ((lit "#a/%F0%9F%8E%89"), (JStr (lit "./other.js"))); ((lit "#a/bar#foo"), (JStr (lit "./ok.js"))); ((lit "#a/#zapp/"), (JStr (lit "./")))]) (lit "#a/#zapp/ok.js?abc") [] = PRet (Ok [(lit "./ok.js?abc")]) /\
  process FImports (JObj [((lit "#a/#foo"), (JStr (lit "./ok.js"))); ((lit "#a/module"), (JStr (lit "./ok.js"))); ([35; 97; 47; 127881]%N, (JStr (lit "./ok.js"))); ((lit "#a/%F0%9F%8E%89"), (JStr (lit "./other.js"))); ((lit "#a/bar#foo"), (JStr (lit "./ok.js"))); ((lit "#a/#zapp/"), (JStr (lit "./")))]) [35; 97; 47; 35; 122; 97; 112; 112; 47; 127881; 46; 106; 115]%N [] = PRet (Ok [[46; 47; 127881; 46; 106; 115]%N]) /\
  process FImports (JObj [((lit "#a/#foo"), (JStr (lit "./ok.js"))); ((lit "#a/module"), (JStr (lit "./ok.js"))); ([35; 97; 47; 127881]%N, (JStr (lit "./ok.js"))); ((lit "#a/%F0%9F%8E%89"), (JStr (lit "./other.js"))); ((lit "#a/bar#foo"), (JStr (lit "./ok.js"))); ((lit "#a/#zapp/"), (JStr (lit "./")))]) (lit "#a/#zapp/%F0%9F%8E%89.js") [] = PRet (Ok [(lit "./%F0%9F%8E%89.js")]) /\
  process FImports (JObj [((lit "#a/#foo"), (JStr (lit "./ok.js"))); ((lit "#a/module"), (JStr (lit "./ok.js"))); ([35; 97; 47; 127881]%N, (JStr (lit "./ok.js"))); ((lit "#a/%F0%9F%8E%89"), (JStr (lit "./other.js"))); ((lit "#a/bar#foo"), (JStr (lit "./ok.js"))); ((lit "#a/#zapp/"), (JStr (lit "./")))]) [35; 97; 47; 127881]%N [] = PRet (Ok [(lit "./ok.js")]) /\
  process FImports (JObj [((lit "#a/#foo"), (JStr (lit "./ok.js"))); ((lit "#a/module"), (JStr (lit "./ok.js"))); ([35; 97; 47; 127881]%N, (JStr (lit "./ok.js"))); ((lit "#a/%F0%9F%8E%89"), (JStr (lit "./other.js"))); ((lit "#a/bar#foo"), (JStr (lit "./ok.js"))); ((lit "#a/#zapp/"), (JStr (lit "./")))]) (lit "#a/%F0%9F%8E%89") [] = PRet (Ok [(lit "./other.js")]) /\
  process FImports (JObj [((lit "#a/#foo"), (JStr (lit "./ok.js"))); ((lit "#a/module"), (JStr (lit "./ok.js"))); ([35; 97; 47; 127881]%N, (JStr (lit "./ok.js"))); ((lit "#a/%F0%9F%8E%89"), (JStr (lit "./other.js"))); ((lit "#a/bar#foo"), (JStr (lit "./ok.js"))); ((lit "#a/#zapp/"), (JStr (lit "./")))]) (lit "#a/module") [] = PRet (Ok [(lit "./ok.js")]) /\
  process FImports (JObj [((lit "#a/#foo"), (JStr (lit "./ok.js"))); ((lit "#a/module"), (JStr (lit "./ok.js"))); ([35; 97; 47; 127881]%N, (JStr (lit "./ok.js"))); ((lit "#a/%F0%9F%8E%89"), (JStr (lit "./other.js"))); ((lit "#a/bar#foo"), (JStr (lit "./ok.js"))); ((lit "#a/#zapp/"), (JStr (lit "./")))]) (lit "#a/module#foo") [] = PRet (Ok []).
Proof. vm_compute. repeat split. Qed.

Example imports_field_map_test_2 :
  process FImports (JObj [((lit "#a/#foo"), (JStr (lit "./ok.js"))); ((lit "#a/module"), (JStr (lit "./ok.js"))); ([35; 97; 47; 127881]%N, (JStr (lit "./ok.js"))); ((lit "#a/%F0%9F%8E%89"), (JStr (lit "./other.js"))); ((lit "#a/bar#foo"), (JStr (lit "./ok.js"))); ((lit "#a/#zapp/"), (JStr (lit "./")))]) (lit "#a/module?foo") [] = PRet (Ok []) /\
  process FImports (JObj [((lit "#a/a?b?c/"), (JStr (lit "./")))]) (lit "#a/a?b?c/d?e?f") [] = PRet (Ok [(lit "./d?e?f")]) /\
  process FImports (JObj [((lit "#a/"), (JStr (lit "/user/a/")))]) (lit "#a/index") [] = PRet (Ok [(lit "/user/a/index")]) /\
  process FImports (JObj [((lit "#a/"), (JStr (lit "./A/"))); ((lit "#a/b/c"), (JStr (lit "./c.js")))]) (lit "#a/b/d.js") [] = PRet (Ok [(lit "./A/b/d.js")]) /\
  process FImports (JObj [((lit "#a/"), (JStr (lit "./A/"))); ((lit "#a/b"), (JStr (lit "./b.js")))]) (lit "#a/c.js") [] = PRet (Ok [(lit "./A/c.js")]) /\
  process FImports (JObj [((lit "#a/"), (JStr (lit "./A/"))); ((lit "#a/b/c/d"), (JStr (lit "./c.js")))]) (lit "#a/b/c/d.js") [] = PRet (Ok [(lit "./A/b/c/d.js")]) /\
  process FImports (JObj [((lit "#a"), (JStr (lit "./dist/index.js")))]) (lit "#a") [] = PRet (Ok [(lit "./dist/index.js")]) /\
  process FImports (JObj [((lit "#a/"), (JStr (lit "./")))]) (lit "#a") [] = PRet (Ok []) /\
  process FImports (JObj [((lit "#a/"), (JStr (lit "./dist/"))); ((lit "#a/index.js"), (JStr (lit "./dist/a.js")))]) (lit "#a/index.js") [] = PRet (Ok [(lit "./dist/a.js")]) /\
  process FImports (JObj [((lit "#a/"), (JObj [((lit "browser"), (JArr [(JStr (lit "./browser/"))]))])); ((lit "#a/index.js"), (JObj [((lit "browser"), (JStr (lit "./index.js")))]))]) (lit "#a/index.js") [(lit "browser")] = PRet (Ok [(lit "./index.js")]).
Proof. vm_compute. repeat split. Qed.

Example imports_field_map_test_3 :
  process FImports (JObj [((lit "#a/"), (JObj [((lit "browser"), (JArr [(JStr (lit "./browser/"))]))])); ((lit "#a/index.js"), (JObj [((lit "node"), (JStr (lit "./node.js")))]))]) (lit "#a/index.js") [(lit "browser")] = PRet (Ok []) /\
  process FImports (JObj [((lit "#a"), (JObj [((lit "browser"), (JStr (lit "./index.js"))); ((lit "node"), (JStr (lit "./src/node/index.js"))); ((lit "default"), (JStr (lit "./src/index.js")))]))]) (lit "#a") [(lit "browser")] = PRet (Ok [(lit "./index.js")]) /\
  process FImports (JObj [((lit "#a"), (JObj [((lit "browser"), (JStr (lit "./index.js"))); ((lit "node"), (JStr (lit "./src/node/index.js"))); ((lit "default"), (JStr (lit "./src/index.js")))]))]) (lit "#a") [] = PRet (Ok [(lit "./src/index.js")]) /\
  process FImports (JObj [((lit "#a"), (JStr (lit "./index")))]) (lit "#a") [] = PRet (Ok [(lit "./index")]) /\
  process FImports (JObj [((lit "#a/index"), (JStr (lit "./index.js")))]) (lit "#a/index") [] = PRet (Ok [(lit "./index.js")]) /\
  process FImports (JObj [((lit "#a"), (JStr (lit "b")))]) (lit "#a") [] = PRet (Ok [(lit "b")]) /\
  process FImports (JObj [((lit "#a/"), (JStr (lit "b/")))]) (lit "#a/index") [] = PRet (Ok [(lit "b/index")]) /\
  process FImports (JObj [((lit "#a?q=a#hashishere"), (JStr (lit "b#anotherhashishere")))]) (lit "#a?q=a#hashishere") [] = PRet (Ok [(lit "b#anotherhashishere")]) /\
  process FImports (JObj [((lit "#a"), (JArr [(JObj [((lit "browser"), (JStr (lit "./browser.js")))]); (JObj [((lit "require"), (JStr (lit "./require.js")))]); (JObj [((lit "import"), (JStr (lit "./import.mjs")))])]))]) (lit "#a") [] = PRet (Ok []) /\
  process FImports (JObj [((lit "#a"), (JArr [(JObj [((lit "browser"), (JStr (lit "./browser.js")))]); (JObj [((lit "require"), (JStr (lit "./require.js")))]); (JObj [((lit "import"), (JStr (lit "./import.mjs")))])]))]) (lit "#a") [(lit "import")] = PRet (Ok [(lit "./import.mjs")]).
Proof. vm_compute. repeat split. Qed.

Example imports_field_map_test_4 :
  process FImports (JObj [((lit "#a"), (JArr [(JObj [((lit "browser"), (JStr (lit "./browser.js")))]); (JObj [((lit "require"), (JStr (lit "./require.js")))]); (JObj [((lit "import"), (JStr (lit "./import.mjs")))])]))]) (lit "#a") [(lit "import"); (lit "require")] = PRet (Ok [(lit "./require.js"); (lit "./import.mjs")]) /\
  process FImports (JObj [((lit "#a"), (JArr [(JObj [((lit "browser"), (JStr (lit "./browser.js")))]); (JObj [((lit "require"), (JStr (lit "./require.js")))]); (JObj [((lit "import"), (JArr [(JStr (lit "./import.mjs")); (JStr (lit "#b/import.js"))]))])]))]) (lit "#a") [(lit "import"); (lit "require")] = PRet (Ok [(lit "./require.js"); (lit "./import.mjs"); (lit "#b/import.js")]) /\
  process FImports (JObj [((lit "#timezones"), (JStr (lit "./data/timezones/")))]) (lit "#timezones/pdt.mjs") [] = PRet (Ok []) /\
  process FImports (JObj [((lit "#timezones/pdt/"), (JStr (lit "./data/timezones/pdt/")))]) (lit "#timezones/pdt/index.mjs") [] = PRet (Ok [(lit "./data/timezones/pdt/index.mjs")]) /\
  process FImports (JObj [((lit "#a/"), (JStr (lit "./timezones/")))]) (lit "#a/pdt.mjs") [] = PRet (Ok [(lit "./timezones/pdt.mjs")]) /\
  process FImports (JObj [((lit "#a/"), (JStr (lit "./")))]) (lit "#a/timezones/pdt.mjs") [] = PRet (Ok [(lit "./timezones/pdt.mjs")]) /\
  process FImports (JObj [((lit "#a"), (JStr (lit ".")))]) (lit "#a/timezones/pdt.mjs") [] = PRet (Ok []) /\
  process FImports (JObj [((lit "#a"), (JStr (lit "./")))]) (lit "#a/timezones/pdt.mjs") [] = PRet (Ok []) /\
  process FImports (JObj [((lit "#a/"), (JStr (lit "./"))); ((lit "#a/dist/"), (JStr (lit "./lib/")))]) (lit "#a/dist/index.mjs") [] = PRet (Ok [(lit "./lib/index.mjs")]) /\
  process FImports (JObj [((lit "#a/dist/utils/"), (JStr (lit "./dist/utils/"))); ((lit "#a/dist/"), (JStr (lit "./lib/")))]) (lit "#a/dist/utils/index.js") [] = PRet (Ok [(lit "./dist/utils/index.js")]).
Proof. vm_compute. repeat split. Qed.

Example imports_field_map_test_5 :
  process FImports (JObj [((lit "#a/dist/utils/index.js"), (JStr (lit "./dist/utils/index.js"))); ((lit "#a/dist/utils/"), (JStr (lit "./dist/utils/index.mjs"))); ((lit "#a/dist/"), (JStr (lit "./lib/")))]) (lit "#a/dist/utils/index.js") [] = PRet (Ok [(lit "./dist/utils/index.js")]) /\
  process FImports (JObj [((lit "#a/"), (JObj [((lit "browser"), (JStr (lit "./browser/")))])); ((lit "#a/dist/"), (JStr (lit "./lib/")))]) (lit "#a/dist/index.js") [] = PRet (Ok [(lit "./lib/index.js")]) /\
  process FImports (JObj [((lit "#a/"), (JObj [((lit "browser"), (JStr (lit "./browser/")))])); ((lit "#a/dist/"), (JStr (lit "./lib/")))]) (lit "#a/dist/index.js") [(lit "browser")] = PRet (Ok [(lit "./lib/index.js")]) /\
  process FImports (JObj [((lit "#a/"), (JObj [((lit "browser"), (JArr [(JStr (lit "lodash/")); (JStr (lit "./utils/"))])); ((lit "node"), (JArr [(JStr (lit "./utils-node/"))]))]))]) (lit "#a/index.js") [(lit "browser")] = PRet (Ok [(lit "lodash/index.js"); (lit "./utils/index.js")]) /\
  process FImports (JObj [((lit "#a/"), (JObj [((lit "webpack"), (JStr (lit "./wpk"))); ((lit "browser"), (JArr [(JStr (lit "lodash/")); (JStr (lit "./utils/"))])); ((lit "node"), (JArr [(JStr (lit "./node/"))]))]))]) (lit "#a/index.mjs") [] = PRet (Ok []) /\
  process FImports (JObj [((lit "#a/"), (JObj [((lit "webpack"), (JStr (lit "./wpk/"))); ((lit "browser"), (JArr [(JStr (lit "lodash/")); (JStr (lit "./utils/"))])); ((lit "node"), (JArr [(JStr (lit "./node/"))]))]))]) (lit "#a/index.mjs") [(lit "browser"); (lit "webpack")] = PRet (Ok [(lit "./wpk/index.mjs")]) /\
  process FImports (JObj [((lit "#a/index"), (JStr (lit "./a/index.js")))]) (lit "#a/index.mjs") [] = PRet (Ok []) /\
  process FImports (JObj [((lit "#a/index.mjs"), (JStr (lit "./a/index.js")))]) (lit "#a/index") [] = PRet (Ok []) /\
  process FImports (JObj [((lit "#a/index"), (JObj [((lit "browser"), (JStr (lit "./a/index.js"))); ((lit "default"), (JStr (lit "./b/index.js")))]))]) (lit "#a/index.mjs") [(lit "browser")] = PRet (Ok []) /\
  process FImports (JObj [((lit "#a/index.mjs"), (JObj [((lit "browser"), (JStr (lit "./a/index.js"))); ((lit "default"), (JStr (lit "./b/index.js")))]))]) (lit "#a/index") [(lit "browser")] = PRet (Ok []).
Proof. vm_compute. repeat split. Qed.

Example imports_field_map_test_6 :
  process FImports (JObj [((lit "#a/../../utils/"), (JStr (lit "./dist/")))]) (lit "#a/../../utils/index") [] = PRet (Ok [(lit "./dist/index")]) /\
  process FImports (JObj [((lit "#a/"), (JStr (lit "./dist/")))]) (lit "#a/../../utils/index") [] = PRet (Ok [(lit "./dist/../../utils/index")]) /\
  process FImports (JObj [((lit "#a/"), (JStr (lit "../src/")))]) (lit "#a/index") [] = PRet (Ok [(lit "../src/index")]) /\
  process FImports (JObj [((lit "#a/"), (JObj [((lit "browser"), (JStr (lit "./utils/../../../")))]))]) (lit "#a/index") [(lit "browser")] = PRet (Ok [(lit "./utils/../../../index")]) /\
  process FImports (JObj [((lit "#a/"), (JObj [((lit "browser"), (JStr (lit "moment/node_modules/")))]))]) (lit "#a/lodash/dist/index.js") [(lit "browser")] = PRet (Ok [(lit "moment/node_modules/lodash/dist/index.js")]) /\
  process FImports (JObj [((lit "#a/"), (JStr (lit "../node_modules/")))]) (lit "#a/lodash/dist/index.js") [(lit "browser")] = PRet (Ok [(lit "../node_modules/lodash/dist/index.js")]) /\
  process FImports (JObj [((lit "#a/"), (JStr (lit "../node_modules/")))]) (lit "#a/lodash/dist/index.js") [] = PRet (Ok [(lit "../node_modules/lodash/dist/index.js")]) /\
  process FImports (JObj [((lit "#a/"), (JObj [((lit "browser"), (JObj [((lit "webpack"), (JStr (lit "./"))); ((lit "default"), (JObj [((lit "node"), (JStr (lit "./node/")))]))]))]))]) (lit "#a/index.js") [(lit "browser")] = PRet (Ok []) /\
  process FImports (JObj [((lit "#a/"), (JObj [((lit "browser"), (JObj [((lit "webpack"), (JArr [(JStr (lit "./")); (JStr (lit "./node/"))])); ((lit "default"), (JObj [((lit "node"), (JStr (lit "./node/")))]))]))]))]) (lit "#a/index.js") [(lit "browser"); (lit "webpack")] = PRet (Ok [(lit "./index.js"); (lit "./node/index.js")]) /\
  process FImports (JObj [((lit "#a/"), (JObj [((lit "browser"), (JObj [((lit "webpack"), (JArr [(JStr (lit "./")); (JStr (lit "./node/"))])); ((lit "default"), (JObj [((lit "node"), (JStr (lit "./node/")))]))]))]))]) (lit "#a/index.js") [(lit "webpack")] = PRet (Ok []).
Proof. vm_compute. repeat split. Qed.

Example imports_field_map_test_7 :
  process FImports (JObj [((lit "#a/"), (JObj [((lit "browser"), (JObj [((lit "webpack"), (JArr [(JStr (lit "./")); (JStr (lit "./node/"))])); ((lit "default"), (JObj [((lit "node"), (JStr (lit "moment/node/")))]))]))]))]) (lit "#a/index.js") [(lit "node"); (lit "browser")] = PRet (Ok [(lit "moment/node/index.js")]) /\
  process FImports (JObj [((lit "#a/"), (JObj [((lit "browser"), (JObj [((lit "webpack"), (JArr [(JStr (lit "./")); (JStr (lit "./node/"))])); ((lit "default"), (JObj [((lit "node"), (JObj [((lit "webpack"), (JArr [(JStr (lit "./wpck"))]))]))]))]))]))]) (lit "#a/index.js") [(lit "browser"); (lit "node"); (lit "webpack")] = PRet (Ok [(lit "./index.js"); (lit "./node/index.js")]) /\
  process FImports (JObj [((lit "#a"), (JObj [((lit "abc"), (JObj [((lit "def"), (JStr (lit "./x.js")))])); ((lit "ghi"), (JStr (lit "./y.js")))]))]) (lit "#a") [(lit "abc"); (lit "ghi")] = PRet (Ok [(lit "./y.js")]) /\
  process FImports (JObj [((lit "#a"), (JObj [((lit "abc"), (JObj [((lit "def"), (JStr (lit "./x.js"))); ((lit "default"), (JArr []))])); ((lit "ghi"), (JStr (lit "./y.js")))]))]) (lit "#a") [(lit "abc"); (lit "ghi")] = PRet (Ok []) /\
  process FImports (JObj [((lit "/utils/"), (JStr (lit "./a/")))]) (lit "#a/index.mjs") [] = PRet (Err (lit "Imports field key should start with #, but got /utils/")) /\
  process FImports (JObj [((lit "/utils/"), (JObj [((lit "browser"), (JStr (lit "./a/"))); ((lit "default"), (JStr (lit "./b/")))]))]) (lit "#a/index.mjs") [] = PRet (Err (lit "Imports field key should start with #, but got /utils/")) /\
  process FImports (JObj [((lit "#a"), (JObj [((lit "default"), (JStr (lit "./src/index.js"))); ((lit "browser"), (JStr (lit "./index.js"))); ((lit "node"), (JStr (lit "./src/node/index.js")))]))]) (lit "#a") [(lit "browser")] = PRet (Err (lit "Default condition should be last one")) /\
  process FImports (JObj [((lit "#timezones/"), (JStr (lit "./data/timezones")))]) (lit "#timezones/pdt.mjs") [] = PRet (Err (lit "Expected ./data/timezones is folder mapping")) /\
  process FImports (JObj [((lit "#a/"), (JStr (lit "./a/")))]) (lit "/utils/index.mjs") [] = PRet (Err (lit "Request should start with #, but got /utils/index.mjs")) /\
  process FImports (JObj [((lit "#a/"), (JObj [((lit "browser"), (JStr (lit "./a/"))); ((lit "default"), (JStr (lit "./b/")))]))]) (lit "/utils/index.mjs") [] = PRet (Err (lit "Request should start with #, but got /utils/index.mjs")).
Proof. vm_compute. repeat split. Qed.

Example imports_field_map_test_8 :
  process FImports (JObj [((lit "#a/"), (JObj [((lit "browser"), (JStr (lit "./a/"))); ((lit "default"), (JStr (lit "./b/")))]))]) (lit "#") [(lit "browser")] = PRet (Err (lit "Request should have at least 2 characters")) /\
  process FImports (JObj [((lit "#a/"), (JObj [((lit "browser"), (JStr (lit "./a/"))); ((lit "default"), (JStr (lit "./b/")))]))]) (lit "#/") [(lit "browser")] = PRet (Err (lit "Import field key should not start with #/, but got #/")) /\
  process FImports (JObj [((lit "#a/"), (JObj [((lit "browser"), (JStr (lit "./a/"))); ((lit "default"), (JStr (lit "./b/")))]))]) (lit "#a/") [(lit "browser")] = PRet (Err (lit "Only requesting file allowed")).
Proof. vm_compute. repeat split. Qed.

Example check_target_64580 : check_target (lit "../a.js") = PRet false.
Proof. vm_compute. reflexivity. Qed.

Example check_target_64633 : check_target (lit "../") = PRet false.
Proof. vm_compute. reflexivity. Qed.

Example check_target_64682 : check_target (lit "./a/b/../../../c.js") = PRet false.
Proof. vm_compute. reflexivity. Qed.

Example check_target_64747 : check_target (lit "./a/b/../../../") = PRet false.
Proof. vm_compute. reflexivity. Qed.

Example check_target_64808 : check_target (lit "./../../c.js") = PRet false.
Proof. vm_compute. reflexivity. Qed.

Example check_target_64866 : check_target (lit "./../../") = PRet false.
Proof. vm_compute. reflexivity. Qed.

Example check_target_64920 : check_target (lit "./a/../b/../../c.js") = PRet false.
Proof. vm_compute. reflexivity. Qed.

Example check_target_64985 : check_target (lit "./a/../b/../../") = PRet false.
Proof. vm_compute. reflexivity. Qed.

Example check_target_65046 : check_target (lit "./././../") = PRet false.
Proof. vm_compute. reflexivity. Qed.

Example parse_0 : parse_identifier (lit "path/#") = ((lit "path/"), (lit ""), (lit "#")).
Proof. vm_compute. reflexivity. Qed.

Example parse_1 : parse_identifier (lit "path/as/?") = ((lit "path/as/"), (lit "?"), (lit "")).
Proof. vm_compute. reflexivity. Qed.

Example parse_2 : parse_identifier (lit "path/#/?") = ((lit "path/"), (lit ""), (lit "#/?")).
Proof. vm_compute. reflexivity. Qed.

Example parse_3 : parse_identifier (lit "path/#repo#hash") = ((lit "path/"), (lit ""), (lit "#repo#hash")).
Proof. vm_compute. reflexivity. Qed.

Example parse_4 : parse_identifier (lit "path/#r#hash") = ((lit "path/"), (lit ""), (lit "#r#hash")).
Proof. vm_compute. reflexivity. Qed.

Example parse_5 : parse_identifier (lit "path/#repo/#repo2#hash") = ((lit "path/"), (lit ""), (lit "#repo/#repo2#hash")).
Proof. vm_compute. reflexivity. Qed.

Example parse_6 : parse_identifier (lit "path/#r/#r#hash") = ((lit "path/"), (lit ""), (lit "#r/#r#hash")).
Proof. vm_compute. reflexivity. Qed.

Example parse_7 : parse_identifier (lit "path/#/not/a/hash?not-a-query") = ((lit "path/"), (lit ""), (lit "#/not/a/hash?not-a-query")).
Proof. vm_compute. reflexivity. Qed.

Example parse_8 : parse_identifier (lit "#a?b#c?d") = ((lit "#a"), (lit "?b"), (lit "#c?d")).
Proof. vm_compute. reflexivity. Qed.

Example parse_9 : parse_identifier (lit "path\#") = ((lit "path\"), (lit ""), (lit "#")).
Proof. vm_compute. reflexivity. Qed.

Example parse_10 : parse_identifier (lit "C:path\as\?") = ((lit "C:path\as\"), (lit "?"), (lit "")).
Proof. vm_compute. reflexivity. Qed.

Example parse_11 : parse_identifier (lit "path\#\?") = ((lit "path\"), (lit ""), (lit "#\?")).
Proof. vm_compute. reflexivity. Qed.

Example parse_12 : parse_identifier (lit "path\#repo#hash") = ((lit "path\"), (lit ""), (lit "#repo#hash")).
Proof. vm_compute. reflexivity. Qed.

Example parse_13 : parse_identifier (lit "path\#r#hash") = ((lit "path\"), (lit ""), (lit "#r#hash")).
Proof. vm_compute. reflexivity. Qed.

Example parse_14 : parse_identifier (lit "path\#/not/a/hash?not-a-query") = ((lit "path\"), (lit ""), (lit "#/not/a/hash?not-a-query")).
Proof. vm_compute. reflexivity. Qed.

Example kind_0 : get_target_kind (lit "") = Relative.
Proof. vm_compute. reflexivity. Qed.

Example kind_1 : get_target_kind (lit ".") = Relative.
Proof. vm_compute. reflexivity. Qed.

Example kind_2 : get_target_kind (lit "..") = Relative.
Proof. vm_compute. reflexivity. Qed.

Example kind_3 : get_target_kind (lit "../a.js") = Relative.
Proof. vm_compute. reflexivity. Qed.

Example kind_4 : get_target_kind (lit "./a.js") = Relative.
Proof. vm_compute. reflexivity. Qed.

Example kind_5 : get_target_kind (lit "D:") = AbsoluteWin.
Proof. vm_compute. reflexivity. Qed.

Example kind_6 : get_target_kind (lit "C:path") = Normal.
Proof. vm_compute. reflexivity. Qed.

Example kind_7 : get_target_kind (lit "C:\a") = AbsoluteWin.
Proof. vm_compute. reflexivity. Qed.

Example kind_8 : get_target_kind (lit "c:/a") = AbsoluteWin.
Proof. vm_compute. reflexivity. Qed.

Example kind_9 : get_target_kind (lit "cc:/a") = Normal.
Proof. vm_compute. reflexivity. Qed.

Example kind_10 : get_target_kind (lit "fs") = Normal.
Proof. vm_compute. reflexivity. Qed.

Example builtin_fs : is_build_in_module (lit "fs") = true /\ is_build_in_module (lit "a") = false.
Proof. vm_compute. split; reflexivity. Qed.
