(** * Replay of tests/cases.rs on a model of tests/fixtures.
    GENERATED by tools/mktests.py; every check is closed by [vm_compute].
    The working directory is "/r".  The files ending in .json have their texts, read by the JSON
    parser of JsonText.v ([texts_read]: it reads them as Python's does) and for tsconfig by the
    table below; the other files are empty.  Each test function runs its calls in order, in
    debug mode, each resolver keeping its caches between its calls. *)
From Coq Require Import String.
From Coq Require Import List Arith NArith Bool.
From Verif Require Import Str Path Json Types Parse Map Prog Desc Resolve Top Run Posix JsonText.
Import ListNotations.

Definition text0 : str := (lit "{
  ""main"": ""main.js"",
  ""browser"": {
    ""./main.js"": false
  }
}").
Definition text1 : str := (lit "{
  ""main"": ""dir""
}").
Definition text2 : str := (lit "{
  ""browser"": {
    ""./lib/ignore.js"": false,
    ""./lib/replaced.js"": ""./lib/browser"",
    ""./lib/redirect.js"": ""./lib/sub"",
    ""./lib/redirect2.js"": ""./lib/sub/"",
    ""./lib/redirect3.js"": ""./lib/redirect3-target"",
    ""module-a"": ""./browser/module-a.js"",
    ""module-b"": ""module-c"",
    ""module-d"": ""module-b"",
    ""./toString"": ""./lib/toString.js"",
    ""."": false,
    ""./util.inspect.js"": false
  }
}
").
Definition text3 : str := (lit "{""main"": ""index.js""}").
Definition text4 : str := (lit "{""main"": ""entry.js""}").
Definition text5 : str := (lit "{
  ""name"": ""import-require"",
  ""version"": ""1.0.0"",
  ""main"": ""./main.js"",
  ""browser"": {
    ""./lib/main.js"": ""./lib/browser.js"",
    ""./dist/main.js"": ""./lib/browser.js""
  },
  ""exports"": {
    ""."": ""./dist/esm/index.js"",
    ""./a"": {
      ""import"": ""./dist/esm/a/index.js"",
      ""require"": ""./dist/cjs/a/index.js""
    }
  },
  ""sideEffects"": [""./index.js"", ""./a.js""]
}
").
Definition text6 : str := (lit "{
  ""name"": ""exports-field"",
  ""version"": ""1.0.0"",
  ""main"": ""./main.js"",
  ""browser"": {
    ""./lib/main.js"": ""./lib/browser.js"",
    ""./dist/main.js"": ""./lib/browser.js""
  },
  ""exports"": {
    ""."": ""./x.js"",
    ""./dist/"": {
      ""webpack"": [""./lib/lib2/"", ""./lib/""],
      ""node"": ""./lib/"",
      ""default"": ""./lib/""
    },
    ""./dist/a.js"": ""./../../a.js""
  },
  ""sideEffects"": false

}
").
Definition text7 : str := (lit "{
  ""name"": ""exports-field"",
  ""version"": ""1.0.0"",
  ""main"": ""./main.js"",
  ""browser"": {
    ""./lib/main.js"": ""./lib/browser.js"",
    ""./dist/main.js"": ""./lib/browser.js""
  },
  ""exports"": {
    ""."": ""./index.js"",
    ""umd"": ""./umd.js""
  }
}
").
Definition text8 : str := (lit "{
  ""name"": ""@exports-field/core"",
  ""version"": ""1.0.0"",
  ""exports"": ""./a.js""
}
").
Definition text9 : str := (lit "{
  ""name"": ""exports-field"",
  ""version"": ""1.0.0"",
  ""exports"": {
    ""."": ""./a/../b/../../pack1/index.js""
  }
}
").
Definition text10 : str := (lit "{
  ""name"": ""exports-field"",
  ""version"": ""1.0.0"",
  ""main"": ""./main.js"",
  ""browser"": {
    ""./lib/main.js"": ""./lib/browser.js"",
    ""./dist/main.js"": ""./lib/browser.js""
  },
  ""exports"": {
    ""."": ""./index.js"",
    ""./dist/"": {
      ""webpack"": [""./lib/lib2/"", ""./lib/""],
      ""node"": ""./lib/"",
      ""default"": ""./lib/""
    }
  }
}
").
Definition text11 : str := (lit "{
  ""name"": ""exports-field"",
  ""exportsField"": {
    ""exports"": ""./main.js""
  },
  ""ex"": ""./index""
}
").
Definition text12 : str := (lit "{
  ""main"": ""./index.js""
}").
Definition text13 : str := (lit "{
  ""main"": ""a""
}").
Definition text14 : str := (lit "{
  ""browser"": {
    ""./a.js"": ""./b""
  }
}").
Definition text15 : str := (lit "{
  ""name"": ""a"",
  ""version"": ""1.0.0"",
  ""main"": ""./main.js"",
  ""browser"": {
    ""./lib/main.js"": ""./lib/browser.js"",
    ""./dist/main.js"": ""./lib/browser.js""
  },
  ""exports"": {
    ""."": ""./x.js"",
    ""./dist/"": {
      ""webpack"": [""./lib/lib2/"", ""./lib/""],
      ""node"": ""./lib/"",
      ""default"": ""./lib/""
    },
    ""./dist/a.js"": ""./../../a.js""
  }
}
").
Definition text16 : str := (lit "{
  ""name"": ""imports-field"",
  ""version"": ""1.0.0"",
  ""exports"": ""./a.js"",
  ""imports"": {
    ""#imports-field"": ""./b.js"",
    ""#b"": ""../b.js"",
    ""#ccc/"": ""c/"",
    ""#c"": ""c"",
    ""#a/"": ""a/"",
    ""#c-redirect/"": ""#ccc/""
  },
  ""other"": {
    ""imports"": {
      ""#b"": ""./a.js""
    }
  }
}
").
Definition text17 : str := (lit "{
  ""main"": ""./a.js"",
").
Definition text18 : str := (lit "").
Definition text19 : str := (lit "{
  ""sideEffects"": {
    
  }
}").
Definition text20 : str := (lit "{
  ""sideEffects"": [1]
}").
Definition text21 : str := (lit "{
  ""main"": ""./src/index""
}").
Definition text22 : str := (lit "{
  ""main"": ""./src/index"",
  ""module"": ""./module.js""
}").
Definition text23 : str := (lit "{
  ""main"": ""./""
}
").
Definition text24 : str := (lit "{
  ""main"": "".""
}
").
Definition text25 : str := (lit "{
  ""main"": ""c"",
  ""module"": ""a""
}
").
Definition text26 : str := (lit "{
  ""name"": ""exports-field-a"",
  ""version"": ""1.0.0"",
  ""main"": ""./main.js"",
  ""exports"": {
    ""."": ""./lib/index.js"",
    ""./a"": ""./lib/a.js""
  }
}
").
Definition text27 : str := (lit "{
  ""name"": ""exports-field-b"",
  ""version"": ""1.0.0"",
  ""main"": ""./main.js"",
  ""exports"": {
    ""./b"": ""./index.js""
  }
}
").
Definition text28 : str := (lit "{
  ""name"": ""exports-field-c"",
  ""version"": ""1.0.0"",
  ""main"": ""./main.js"",
  ""exports"": {
    ""."": ""./lib/index.js"",
    ""./b"": ""./lib/b.js"",
    ""./c"": ""./lib/c.js""
  }
}
").
Definition text29 : str := (lit "{
  ""browser"": {
    ""./index.js"": ""./main.js""
  }
}
").
Definition text30 : str := (lit "{
  ""main"": ""./main.js""
}
").
Definition text31 : str := (lit "{
  ""main"": ""./lib/index.js""
}").
Definition text32 : str := (lit "{
  ""compilerOptions"": {
    ""baseUrl"": ""."",
    ""paths"": {
      ""test0"": [""./test0-success.ts""],
      ""test1/*"": [""./test1-success.ts""],
      ""test2/*"": [""./test2-success/*""],
      ""t*t3/foo"": [""./test3-succ*s.ts""],
      ""test4/*"": [""./test4-first/*"", ""./test4-second/*""],
      ""test5/*"": [""./test5-first/*"", ""./test5-second/*""],
      ""/virtual-in/test"": [""./actual/test""],
      ""/virtual-in-star/*"": [""./actual/*""],
    },
  }
}").
Definition text33 : str := (lit "{
  ""compilerOptions"": {
    ""paths"": {
      ""foo"": [""./test.ts""]
    }
  }
}").
Definition text34 : str := (lit "{
  ""extends"": ""module/tsconfig.json"",
  ""compilerOptions"": {
    ""baseUrl"": ""./src"" // comment
  }
}").
Definition text35 : str := (lit "{
  ""extends"": ""@scope/module/tsconfig.json"",
  ""compilerOptions"": {
    ""baseUrl"": ""./src"" // comment
  }
}").
Definition text36 : str := (lit "{
  ""extends"": ""./tsconfig.paths.json"",
  ""compilerOptions"": {
  }
}").
Definition text37 : str := (lit "{
  ""compilerOptions"": {
    ""paths"": {
      ""#/*"": [""./*""]
    }
  }
}").
Definition text38 : str := (lit "{
  ""compilerOptions"": {
    ""baseUrl"": ""nested"",
    ""paths"": {
      ""test0"": [""./test0-success.ts""],
      ""test1/*"": [""./test1-success.ts""],
      ""test2/*"": [""./test2-success/*""],
      ""t*t3/foo"": [""./test3-succ*s.ts""],
      ""test4/*"": [""./test4-first/*"", ""./test4-second/*""],
      ""test5/*"": [""./test5-first/*"", ""./test5-second/*""],
      ""/virtual-in/test"": [""./actual/test""],
      ""/virtual-in-star/*"": [""./actual/*""],
    }
  },
}
").
Definition text39 : str := (lit "{
  ""extends"": ""./tsconfig.paths.json"",
  ""compilerOptions"": {
    ""baseUrl"": ""./src"" // comment
  }
}").
Definition text40 : str := (lit "{
  ""compilerOptions"": {
    ""paths"": {
      ""test"": [
        ""."",
        "".."",
        ""./good"",
        "".\\good"",
        ""../good"",
        ""..\\good"",
        ""/good"",
        ""\\good"",
        ""c:/good"",
        ""c:\\good"",
        ""C:/good"",
        ""C:\\good"",

        ""bad"",
        ""@bad/core"",
        "".*/bad"",
        ""..*/bad"",
        ""c*:\\bad"",
        ""c:*\\bad"",
        ""http://bad""
      ]
    }
  }
}").
Definition text41 : str := (lit "{""main"": ""module.js""}").
Definition fixtures : node := NDir [((lit "a.js"), NFile [] 5000000000%N); ((lit "abc.txt"), NFile [] 5000000000%N); ((lit "alias"), NDir [((lit "a"), NDir [((lit "dir"), NDir [((lit "index"), NFile [] 5000000000%N)]); ((lit "index"), NFile [] 5000000000%N)]); ((lit "b"), NDir [((lit "dir"), NDir [((lit "index"), NFile [] 5000000000%N)]); ((lit "index"), NFile [] 5000000000%N)]); ((lit "c"), NDir [((lit "dir"), NDir [((lit "index"), NFile [] 5000000000%N)]); ((lit "index"), NFile [] 5000000000%N)]); ((lit "d"), NDir [((lit "dir"), NDir [((lit ".empty"), NFile [] 5000000000%N)]); ((lit "index.js"), NFile [] 5000000000%N)]); ((lit "e"), NDir [((lit "anotherDir"), NDir [((lit "index"), NFile [] 5000000000%N)]); ((lit "dir"), NDir [((lit "file"), NFile [] 5000000000%N)]); ((lit "index"), NFile [] 5000000000%N)]); ((lit "node_modules"), NDir [((lit "@recursive"), NDir [((lit "general"), NDir [((lit "index.js"), NFile [] 5000000000%N); ((lit "redirect.js"), NFile [] 5000000000%N)]); ((lit "pointed"), NDir [((lit "index.js"), NFile [] 5000000000%N)])])]); ((lit "recursive"), NDir [((lit "dir"), NDir [((lit "index"), NFile [] 5000000000%N)]); ((lit "index"), NFile [] 5000000000%N)])]); ((lit "b.js"), NFile [] 5000000000%N); ((lit "browser-after-main"), NDir [((lit "main.js"), NFile [] 5000000000%N); ((lit "package.json"), NFile text0 5000000000%N)]); ((lit "browser-module"), NDir [((lit "browser"), NDir [((lit "module-a.js"), NFile [] 5000000000%N)]); ((lit "lib"), NDir [((lit "browser.js"), NFile [] 5000000000%N); ((lit "ignore.js"), NFile [] 5000000000%N); ((lit "main.js"), NFile [] 5000000000%N); ((lit "redirect.js"), NFile [] 5000000000%N); ((lit "redirect2.js"), NFile [] 5000000000%N); ((lit "redirect3-target"), NDir [((lit "dir"), NDir [((lit "index.js"), NFile [] 5000000000%N)]); ((lit "package.json"), NFile text1 5000000000%N)]); ((lit "redirect3.js"), NFile [] 5000000000%N); ((lit "replaced.js"), NFile [] 5000000000%N); ((lit "sub"), NDir [((lit "dir"), NDir [((lit "index.js"), NFile [] 5000000000%N)]); ((lit "package.json"), NFile text1 5000000000%N)]); ((lit "sub.js"), NFile [] 5000000000%N); ((lit "toString.js"), NFile [] 5000000000%N)]); ((lit "node_modules"), NDir [((lit "module-a.js"), NFile [] 5000000000%N); ((lit "module-b.js"), NFile [] 5000000000%N); ((lit "module-c.js"), NFile [] 5000000000%N)]); ((lit "package.json"), NFile text2 5000000000%N)]); ((lit "c.js"), NFile [] 5000000000%N); ((lit "cache-fs"), NDir [((lit "index.js"), NFile [] 5000000000%N); ((lit "module.js"), NFile [] 5000000000%N); ((lit "package.json"), NFile text3 5000000000%N)]); ((lit "dependencies"), NDir [((lit "a"), NDir [((lit "b"), NDir [((lit "node_modules"), NDir [((lit "some-module"), NDir [((lit "index.js"), NFile [] 5000000000%N)])])]); ((lit "node_modules"), NDir [((lit "module"), NDir [((lit "file.js"), NFile [] 5000000000%N); ((lit "package.json"), NFile text4 5000000000%N)])])]); ((lit "node_modules"), NDir [((lit "other-module"), NDir [((lit "file.js"), NFile [] 5000000000%N)])])]); ((lit "dirOrFile"), NDir [((lit "index.js"), NFile [] 5000000000%N)]); ((lit "dirOrFile.js"), NFile [] 5000000000%N); ((lit "exports-field"), NDir [((lit "a.js"), NFile [] 5000000000%N); ((lit "b.js"), NFile [] 5000000000%N); ((lit "node_modules"), NDir [((lit "@scope"), NDir [((lit "import-require"), NDir [((lit "dist"), NDir [((lit "cjs"), NDir [((lit "a"), NDir [((lit "index.js"), NFile [] 5000000000%N)]); ((lit "index.js"), NFile [] 5000000000%N)]); ((lit "esm"), NDir [((lit "a"), NDir [((lit "index.js"), NFile [] 5000000000%N)]); ((lit "index.js"), NFile [] 5000000000%N)])]); ((lit "package.json"), NFile text5 5000000000%N)])]); ((lit "exports-field"), NDir [((lit "lib"), NDir [((lit "browser.js"), NFile [] 5000000000%N); ((lit "index.js"), NFile [] 5000000000%N); ((lit "lib2"), NDir [((lit "main.js"), NFile [] 5000000000%N)]); ((lit "main.js"), NFile [] 5000000000%N)]); ((lit "main.js"), NFile [] 5000000000%N); ((lit "package.json"), NFile text6 5000000000%N); ((lit "x.js"), NFile [] 5000000000%N)]); ((lit "invalid-exports-field"), NDir [((lit "index.js"), NFile [] 5000000000%N); ((lit "package.json"), NFile text7 5000000000%N); ((lit "umd.js"), NFile [] 5000000000%N)])]); ((lit "package.json"), NFile text8 5000000000%N)]); ((lit "exports-field-error"), NDir [((lit "node_modules"), NDir [((lit "exports-field"), NDir [((lit "package.json"), NFile text9 5000000000%N)]); ((lit "pack1"), NDir [((lit "index.js"), NFile [] 5000000000%N)])])]); ((lit "exports-field2"), NDir [((lit "node_modules"), NDir [((lit "exports-field"), NDir [((lit "index.js"), NFile [] 5000000000%N); ((lit "lib"), NDir [((lit "browser.js"), NFile [] 5000000000%N); ((lit "lib2"), NDir [((lit "main.js"), NFile [] 5000000000%N)]); ((lit "main.js"), NFile [] 5000000000%N)]); ((lit "main.js"), NFile [] 5000000000%N); ((lit "package.json"), NFile text10 5000000000%N)])])]); ((lit "exports-field3"), NDir [((lit "node_modules"), NDir [((lit "exports-field"), NDir [((lit "index"), NFile [] 5000000000%N); ((lit "main.js"), NFile [] 5000000000%N); ((lit "package.json"), NFile text11 5000000000%N)])])]); ((lit "extensions"), NDir [((lit "a.js"), NFile [] 5000000000%N); ((lit "a.ts"), NFile [] 5000000000%N); ((lit "dir"), NDir [((lit "index.js"), NFile [] 5000000000%N); ((lit "index.ts"), NFile [] 5000000000%N)]); ((lit "index.js"), NFile [] 5000000000%N); ((lit "index.ts"), NFile [] 5000000000%N); ((lit "node_modules"), NDir [((lit "m"), NDir [((lit "index.js"), NFile [] 5000000000%N); ((lit "index.ts"), NFile [] 5000000000%N)]); ((lit "m.js"), NFile [] 5000000000%N)]); ((lit "package.json"), NFile text12 5000000000%N)]); ((lit "extensions2"), NDir [((lit "a"), NFile [] 5000000000%N); ((lit "a.js"), NFile [] 5000000000%N); ((lit "b"), NFile [] 5000000000%N); ((lit "index"), NFile [] 5000000000%N); ((lit "index.js"), NFile [] 5000000000%N); ((lit "package.json"), NFile text12 5000000000%N)]); ((lit "full"), NDir [((lit "a"), NDir [((lit "abc.js"), NFile [] 5000000000%N); ((lit "dir"), NDir [((lit "index.js"), NFile [] 5000000000%N)]); ((lit "index.js"), NFile [] 5000000000%N); ((lit "node_modules"), NDir [((lit "package1"), NDir [((lit "file.js"), NFile [] 5000000000%N); ((lit "index.js"), NFile [] 5000000000%N)]); ((lit "package2"), NDir [((lit "a.js"), NFile [] 5000000000%N); ((lit "package.json"), NFile text13 5000000000%N)]); ((lit "package3"), NDir [((lit "dir"), NDir [((lit "index.js"), NFile [] 5000000000%N)]); ((lit "package.json"), NFile text1 5000000000%N)]); ((lit "package4"), NDir [((lit "a.js"), NFile [] 5000000000%N); ((lit "b.js"), NFile [] 5000000000%N); ((lit "package.json"), NFile text14 5000000000%N)])])])]); ((lit "imports-field"), NDir [((lit "a.js"), NFile [] 5000000000%N); ((lit "b.js"), NFile [] 5000000000%N); ((lit "dir"), NDir [((lit "b.js"), NFile [] 5000000000%N)]); ((lit "node_modules"), NDir [((lit "a"), NDir [((lit "lib"), NDir [((lit "browser.js"), NFile [] 5000000000%N); ((lit "index.js"), NFile [] 5000000000%N); ((lit "lib2"), NDir [((lit "main.js"), NFile [] 5000000000%N)]); ((lit "main.js"), NFile [] 5000000000%N)]); ((lit "main.js"), NFile [] 5000000000%N); ((lit "package.json"), NFile text15 5000000000%N); ((lit "x.js"), NFile [] 5000000000%N)]); ((lit "c"), NDir [((lit "index.js"), NFile [] 5000000000%N)])]); ((lit "package.json"), NFile text16 5000000000%N)]); ((lit "incorrect-package"), NDir [((lit "pack1"), NDir [((lit "a.js"), NFile [] 5000000000%N); ((lit "package.json"), NFile text17 5000000000%N)]); ((lit "pack2"), NDir [((lit "a.js"), NFile [] 5000000000%N); ((lit "package.json"), NFile text18 5000000000%N)]); ((lit "sideeffects-map"), NDir [((lit "index.js"), NFile [] 5000000000%N); ((lit "package.json"), NFile text19 5000000000%N)]); ((lit "sideeffects-other-in-array"), NDir [((lit "package.json"), NFile text20 5000000000%N)])]); ((lit "m.js"), NDir [((lit "index.js"), NFile [] 5000000000%N)]); ((lit "main-field"), NDir [((lit "index.js"), NFile [] 5000000000%N); ((lit "package.json"), NFile text21 5000000000%N); ((lit "src"), NDir [((lit "index.js"), NFile [] 5000000000%N)])]); ((lit "main-field-inexist"), NDir [((lit "index.js"), NFile [] 5000000000%N); ((lit "module.js"), NFile [] 5000000000%N); ((lit "package.json"), NFile text22 5000000000%N)]); ((lit "main-field-self"), NDir [((lit "index.js"), NFile [] 5000000000%N); ((lit "package.json"), NFile text23 5000000000%N)]); ((lit "main-field-self2"), NDir [((lit "index.js"), NFile [] 5000000000%N); ((lit "package.json"), NFile text24 5000000000%N)]); ((lit "main-filed-no-relative"), NDir [((lit "c.js"), NFile [] 5000000000%N); ((lit "index.js"), NFile [] 5000000000%N); ((lit "node_modules"), NDir [((lit "a"), NDir [((lit "index.js"), NFile [] 5000000000%N)]); ((lit "c"), NDir [((lit "index.js"), NFile [] 5000000000%N)])]); ((lit "package.json"), NFile text25 5000000000%N)]); ((lit "main1.js"), NFile [] 5000000000%N); ((lit "main2.js"), NFile [] 5000000000%N); ((lit "main3.js"), NFile [] 5000000000%N); ((lit "multiple_modules"), NDir [((lit "node_modules"), NDir [((lit "m1"), NDir [((lit "a.js"), NFile [] 5000000000%N)])])]); ((lit "no#fragment"), NDir [((lit "#"), NDir [((lit "#.js"), NFile [] 5000000000%N)])]); ((lit "no.js"), NFile [] 5000000000%N); ((lit "node_modules"), NDir [((lit "complexm"), NDir [((lit "node_modules"), NDir [((lit "m1"), NDir [((lit "a.js"), NFile [] 5000000000%N); ((lit "index.js"), NFile [] 5000000000%N)])]); ((lit "step1.js"), NFile [] 5000000000%N); ((lit "step2.js"), NFile [] 5000000000%N)]); ((lit "invalidPackageJson"), NDir [((lit "package.json"), NFile text18 5000000000%N)]); ((lit "m1"), NDir [((lit "a.js"), NFile [] 5000000000%N); ((lit "b.js"), NFile [] 5000000000%N)]); ((lit "m2"), NDir [((lit "b.js"), NFile [] 5000000000%N)]); ((lit "recursive-module"), NDir [((lit "file.js"), NFile [] 5000000000%N); ((lit "index.js"), NFile [] 5000000000%N)])]); ((lit "pnpm-structure"), NDir [((lit "node_modules"), NDir [((lit "exports-field-a"), NDir [((lit "lib"), NDir [((lit "a.js"), NFile [] 5000000000%N); ((lit "index.js"), NFile [] 5000000000%N)]); ((lit "node_modules"), NDir [((lit ".bin"), NDir [((lit "placeholder"), NFile [] 5000000000%N)])]); ((lit "package.json"), NFile text26 5000000000%N)]); ((lit "exports-field-b"), NDir [((lit "index.js"), NFile [] 5000000000%N); ((lit "package.json"), NFile text27 5000000000%N)]); ((lit "exports-field-c"), NDir [((lit "lib"), NDir [((lit "b.js"), NFile [] 5000000000%N); ((lit "c.js"), NFile [] 5000000000%N); ((lit "index.js"), NFile [] 5000000000%N)]); ((lit "node_modules"), NDir [((lit ".bin"), NDir [((lit "placeholder"), NFile [] 5000000000%N)])]); ((lit "package.json"), NFile text28 5000000000%N)]); ((lit "module-a"), NDir [((lit "index.js"), NFile [] 5000000000%N)]); ((lit "module-b"), NDir [((lit "index.js"), NFile [] 5000000000%N)])])]); ((lit "scoped"), NDir [((lit "node_modules"), NDir [((lit "@scope"), NDir [((lit "pack1"), NDir [((lit "main.js"), NFile [] 5000000000%N); ((lit "package.json"), NFile text29 5000000000%N)]); ((lit "pack2"), NDir [((lit "lib"), NDir [((lit "index.js"), NFile [] 5000000000%N)]); ((lit "main.js"), NFile [] 5000000000%N); ((lit "package.json"), NFile text30 5000000000%N)])])])]); ((lit "simple"), NDir [((lit "lib"), NDir [((lit "index.js"), NFile [] 5000000000%N)]); ((lit "package.json"), NFile text31 5000000000%N)]); ((lit "symlink"), NDir [((lit "lib"), NDir [((lit "index.js"), NFile [] 5000000000%N)]); ((lit "linked"), NDir [((lit "index.js"), NLink (lit "../lib/index.js")); ((lit "lib"), NLink (lit "../lib/")); ((lit "node.relative.js"), NLink (lit "../lib/index.js")); ((lit "node.relative.sym.js"), NLink (lit "./node.relative.js")); ((lit "outer"), NLink (lit "..")); ((lit "that"), NLink (lit "./this")); ((lit "this"), NLink (lit "."))])]); ((lit "tsconfig-paths"), NDir [((lit "absolute-in-star.ts"), NFile [] 5000000000%N); ((lit "absolute-in.ts"), NFile [] 5000000000%N); ((lit "actual"), NDir [((lit "test.ts"), NFile [] 5000000000%N)]); ((lit "test0-success.ts"), NFile [] 5000000000%N); ((lit "test1-success.ts"), NFile [] 5000000000%N); ((lit "test2-success"), NDir [((lit "foo.ts"), NFile [] 5000000000%N)]); ((lit "test3-success.ts"), NFile [] 5000000000%N); ((lit "test4-first"), NDir [((lit "foo.ts"), NFile [] 5000000000%N)]); ((lit "test5-second"), NDir [((lit "foo.ts"), NFile [] 5000000000%N)]); ((lit "tsconfig.json"), NFile text32 5000000000%N)]); ((lit "tsconfig-paths-extends-from-module"), NDir [((lit "node_modules"), NDir [((lit "@scope"), NDir [((lit "module"), NDir [((lit "tsconfig.json"), NFile text33 5000000000%N)])]); ((lit "module"), NDir [((lit "tsconfig.json"), NFile text33 5000000000%N)])]); ((lit "src"), NDir [((lit "test.ts"), NFile [] 5000000000%N)]); ((lit "tsconfig.json"), NFile text34 5000000000%N); ((lit "tsconfig.scope.json"), NFile text35 5000000000%N)]); ((lit "tsconfig-paths-missing-baseURL"), NDir [((lit "src"), NDir [((lit "test.ts"), NFile [] 5000000000%N)]); ((lit "tsconfig.json"), NFile text36 5000000000%N); ((lit "tsconfig.paths.json"), NFile text37 5000000000%N)]); ((lit "tsconfig-paths-nested"), NDir [((lit "absolute-in-star.ts"), NFile [] 5000000000%N); ((lit "absolute-in.ts"), NFile [] 5000000000%N); ((lit "nested"), NDir [((lit "actual"), NDir [((lit "test.ts"), NFile [] 5000000000%N)]); ((lit "test0-success.ts"), NFile [] 5000000000%N); ((lit "test1-success.ts"), NFile [] 5000000000%N); ((lit "test2-success"), NDir [((lit "foo.ts"), NFile [] 5000000000%N)]); ((lit "test3-success.ts"), NFile [] 5000000000%N); ((lit "test4-first"), NDir [((lit "foo.ts"), NFile [] 5000000000%N)]); ((lit "test5-second"), NDir [((lit "foo.ts"), NFile [] 5000000000%N)])]); ((lit "tsconfig.json"), NFile text38 5000000000%N)]); ((lit "tsconfig-paths-override-baseURL"), NDir [((lit "src"), NDir [((lit "test.ts"), NFile [] 5000000000%N)]); ((lit "tsconfig.json"), NFile text39 5000000000%N); ((lit "tsconfig.paths.json"), NFile text37 5000000000%N)]); ((lit "tsconfig-paths-without-baseURL"), NDir [((lit "should-not-be-imported.ts"), NFile [] 5000000000%N); ((lit "tsconfig.json"), NFile text40 5000000000%N)])].
Definition root : node := NDir [(lit "r", NDir [(lit "tests", NDir [(lit "fixtures", fixtures)])])].
Definition fs0 : fsys := posix_fs 300 root [lit "r"].
Definition json_table : list (str * option json) := [(text0, Some (JObj [((lit "main"), (JStr (lit "main.js"))); ((lit "browser"), (JObj [((lit "./main.js"), (JBool false))]))])); (text1, Some (JObj [((lit "main"), (JStr (lit "dir")))])); (text2, Some (JObj [((lit "browser"), (JObj [((lit "./lib/ignore.js"), (JBool false)); ((lit "./lib/replaced.js"), (JStr (lit "./lib/browser"))); ((lit "./lib/redirect.js"), (JStr (lit "./lib/sub"))); ((lit "./lib/redirect2.js"), (JStr (lit "./lib/sub/"))); ((lit "./lib/redirect3.js"), (JStr (lit "./lib/redirect3-target"))); ((lit "module-a"), (JStr (lit "./browser/module-a.js"))); ((lit "module-b"), (JStr (lit "module-c"))); ((lit "module-d"), (JStr (lit "module-b"))); ((lit "./toString"), (JStr (lit "./lib/toString.js"))); ((lit "."), (JBool false)); ((lit "./util.inspect.js"), (JBool false))]))])); (text3, Some (JObj [((lit "main"), (JStr (lit "index.js")))])); (text4, Some (JObj [((lit "main"), (JStr (lit "entry.js")))])); (text5, Some (JObj [((lit "name"), (JStr (lit "import-require"))); ((lit "version"), (JStr (lit "1.0.0"))); ((lit "main"), (JStr (lit "./main.js"))); ((lit "browser"), (JObj [((lit "./lib/main.js"), (JStr (lit "./lib/browser.js"))); ((lit "./dist/main.js"), (JStr (lit "./lib/browser.js")))])); ((lit "exports"), (JObj [((lit "."), (JStr (lit "./dist/esm/index.js"))); ((lit "./a"), (JObj [((lit "import"), (JStr (lit "./dist/esm/a/index.js"))); ((lit "require"), (JStr (lit "./dist/cjs/a/index.js")))]))])); ((lit "sideEffects"), (JArr [(JStr (lit "./index.js")); (JStr (lit "./a.js"))]))])); (text6, Some (JObj [((lit "name"), (JStr (lit "exports-field"))); ((lit "version"), (JStr (lit "1.0.0"))); ((lit "main"), (JStr (lit "./main.js"))); ((lit "browser"), (JObj [((lit "./lib/main.js"), (JStr (lit "./lib/browser.js"))); ((lit "./dist/main.js"), (JStr (lit "./lib/browser.js")))])); ((lit "exports"), (JObj [((lit "."), (JStr (lit "./x.js"))); ((lit "./dist/"), (JObj [((lit "webpack"), (JArr [(JStr (lit "./lib/lib2/")); (JStr (lit "./lib/"))])); ((lit "node"), (JStr (lit "./lib/"))); ((lit "default"), (JStr (lit "./lib/")))])); ((lit "./dist/a.js"), (JStr (lit "./../../a.js")))])); ((lit "sideEffects"), (JBool false))])); (text7, Some (JObj [((lit "name"), (JStr (lit "exports-field"))); ((lit "version"), (JStr (lit "1.0.0"))); ((lit "main"), (JStr (lit "./main.js"))); ((lit "browser"), (JObj [((lit "./lib/main.js"), (JStr (lit "./lib/browser.js"))); ((lit "./dist/main.js"), (JStr (lit "./lib/browser.js")))])); ((lit "exports"), (JObj [((lit "."), (JStr (lit "./index.js"))); ((lit "umd"), (JStr (lit "./umd.js")))]))])); (text8, Some (JObj [((lit "name"), (JStr (lit "@exports-field/core"))); ((lit "version"), (JStr (lit "1.0.0"))); ((lit "exports"), (JStr (lit "./a.js")))])); (text9, Some (JObj [((lit "name"), (JStr (lit "exports-field"))); ((lit "version"), (JStr (lit "1.0.0"))); ((lit "exports"), (JObj [((lit "."), (JStr (lit "./a/../b/../../pack1/index.js")))]))])); (text10, Some (JObj [((lit "name"), (JStr (lit "exports-field"))); ((lit "version"), (JStr (lit "1.0.0"))); ((lit "main"), (JStr (lit "./main.js"))); ((lit "browser"), (JObj [((lit "./lib/main.js"), (JStr (lit "./lib/browser.js"))); ((lit "./dist/main.js"), (JStr (lit "./lib/browser.js")))])); ((lit "exports"), (JObj [((lit "."), (JStr (lit "./index.js"))); ((lit "./dist/"), (JObj [((lit "webpack"), (JArr [(JStr (lit "./lib/lib2/")); (JStr (lit "./lib/"))])); ((lit "node"), (JStr (lit "./lib/"))); ((lit "default"), (JStr (lit "./lib/")))]))]))])); (text11, Some (JObj [((lit "name"), (JStr (lit "exports-field"))); ((lit "exportsField"), (JObj [((lit "exports"), (JStr (lit "./main.js")))])); ((lit "ex"), (JStr (lit "./index")))])); (text12, Some (JObj [((lit "main"), (JStr (lit "./index.js")))])); (text13, Some (JObj [((lit "main"), (JStr (lit "a")))])); (text14, Some (JObj [((lit "browser"), (JObj [((lit "./a.js"), (JStr (lit "./b")))]))])); (text15, Some (JObj [((lit "name"), (JStr (lit "a"))); ((lit "version"), (JStr (lit "1.0.0"))); ((lit "main"), (JStr (lit "./main.js"))); ((lit "browser"), (JObj [((lit "./lib/main.js"), (JStr (lit "./lib/browser.js"))); ((lit "./dist/main.js"), (JStr (lit "./lib/browser.js")))])); ((lit "exports"), (JObj [((lit "."), (JStr (lit "./x.js"))); ((lit "./dist/"), (JObj [((lit "webpack"), (JArr [(JStr (lit "./lib/lib2/")); (JStr (lit "./lib/"))])); ((lit "node"), (JStr (lit "./lib/"))); ((lit "default"), (JStr (lit "./lib/")))])); ((lit "./dist/a.js"), (JStr (lit "./../../a.js")))]))])); (text16, Some (JObj [((lit "name"), (JStr (lit "imports-field"))); ((lit "version"), (JStr (lit "1.0.0"))); ((lit "exports"), (JStr (lit "./a.js"))); ((lit "imports"), (JObj [((lit "#imports-field"), (JStr (lit "./b.js"))); ((lit "#b"), (JStr (lit "../b.js"))); ((lit "#ccc/"), (JStr (lit "c/"))); ((lit "#c"), (JStr (lit "c"))); ((lit "#a/"), (JStr (lit "a/"))); ((lit "#c-redirect/"), (JStr (lit "#ccc/")))])); ((lit "other"), (JObj [((lit "imports"), (JObj [((lit "#b"), (JStr (lit "./a.js")))]))]))])); (text17, None); (text18, None); (text19, Some (JObj [((lit "sideEffects"), (JObj []))])); (text20, Some (JObj [((lit "sideEffects"), (JArr [(JNum (lit "1"))]))])); (text21, Some (JObj [((lit "main"), (JStr (lit "./src/index")))])); (text22, Some (JObj [((lit "main"), (JStr (lit "./src/index"))); ((lit "module"), (JStr (lit "./module.js")))])); (text23, Some (JObj [((lit "main"), (JStr (lit "./")))])); (text24, Some (JObj [((lit "main"), (JStr (lit ".")))])); (text25, Some (JObj [((lit "main"), (JStr (lit "c"))); ((lit "module"), (JStr (lit "a")))])); (text26, Some (JObj [((lit "name"), (JStr (lit "exports-field-a"))); ((lit "version"), (JStr (lit "1.0.0"))); ((lit "main"), (JStr (lit "./main.js"))); ((lit "exports"), (JObj [((lit "."), (JStr (lit "./lib/index.js"))); ((lit "./a"), (JStr (lit "./lib/a.js")))]))])); (text27, Some (JObj [((lit "name"), (JStr (lit "exports-field-b"))); ((lit "version"), (JStr (lit "1.0.0"))); ((lit "main"), (JStr (lit "./main.js"))); ((lit "exports"), (JObj [((lit "./b"), (JStr (lit "./index.js")))]))])); (text28, Some (JObj [((lit "name"), (JStr (lit "exports-field-c"))); ((lit "version"), (JStr (lit "1.0.0"))); ((lit "main"), (JStr (lit "./main.js"))); ((lit "exports"), (JObj [((lit "."), (JStr (lit "./lib/index.js"))); ((lit "./b"), (JStr (lit "./lib/b.js"))); ((lit "./c"), (JStr (lit "./lib/c.js")))]))])); (text29, Some (JObj [((lit "browser"), (JObj [((lit "./index.js"), (JStr (lit "./main.js")))]))])); (text30, Some (JObj [((lit "main"), (JStr (lit "./main.js")))])); (text31, Some (JObj [((lit "main"), (JStr (lit "./lib/index.js")))])); (text32, None); (text33, Some (JObj [((lit "compilerOptions"), (JObj [((lit "paths"), (JObj [((lit "foo"), (JArr [(JStr (lit "./test.ts"))]))]))]))])); (text34, None); (text35, None); (text36, Some (JObj [((lit "extends"), (JStr (lit "./tsconfig.paths.json"))); ((lit "compilerOptions"), (JObj []))])); (text37, Some (JObj [((lit "compilerOptions"), (JObj [((lit "paths"), (JObj [((lit "#/*"), (JArr [(JStr (lit "./*"))]))]))]))])); (text38, None); (text39, None); (text40, Some (JObj [((lit "compilerOptions"), (JObj [((lit "paths"), (JObj [((lit "test"), (JArr [(JStr (lit ".")); (JStr (lit "..")); (JStr (lit "./good")); (JStr (lit ".\good")); (JStr (lit "../good")); (JStr (lit "..\good")); (JStr (lit "/good")); (JStr (lit "\good")); (JStr (lit "c:/good")); (JStr (lit "c:\good")); (JStr (lit "C:/good")); (JStr (lit "C:\good")); (JStr (lit "bad")); (JStr (lit "@bad/core")); (JStr (lit ".*/bad")); (JStr (lit "..*/bad")); (JStr (lit "c*:\bad")); (JStr (lit "c:*\bad")); (JStr (lit "http://bad"))]))]))]))])); (text41, Some (JObj [((lit "main"), (JStr (lit "module.js")))]))].
Definition jsonc_table : list (str * json) := [(text0, (JObj [((lit "main"), (JStr (lit "main.js"))); ((lit "browser"), (JObj [((lit "./main.js"), (JBool false))]))])); (text1, (JObj [((lit "main"), (JStr (lit "dir")))])); (text2, (JObj [((lit "browser"), (JObj [((lit "./lib/ignore.js"), (JBool false)); ((lit "./lib/replaced.js"), (JStr (lit "./lib/browser"))); ((lit "./lib/redirect.js"), (JStr (lit "./lib/sub"))); ((lit "./lib/redirect2.js"), (JStr (lit "./lib/sub/"))); ((lit "./lib/redirect3.js"), (JStr (lit "./lib/redirect3-target"))); ((lit "module-a"), (JStr (lit "./browser/module-a.js"))); ((lit "module-b"), (JStr (lit "module-c"))); ((lit "module-d"), (JStr (lit "module-b"))); ((lit "./toString"), (JStr (lit "./lib/toString.js"))); ((lit "."), (JBool false)); ((lit "./util.inspect.js"), (JBool false))]))])); (text3, (JObj [((lit "main"), (JStr (lit "index.js")))])); (text4, (JObj [((lit "main"), (JStr (lit "entry.js")))])); (text5, (JObj [((lit "name"), (JStr (lit "import-require"))); ((lit "version"), (JStr (lit "1.0.0"))); ((lit "main"), (JStr (lit "./main.js"))); ((lit "browser"), (JObj [((lit "./lib/main.js"), (JStr (lit "./lib/browser.js"))); ((lit "./dist/main.js"), (JStr (lit "./lib/browser.js")))])); ((lit "exports"), (JObj [((lit "."), (JStr (lit "./dist/esm/index.js"))); ((lit "./a"), (JObj [((lit "import"), (JStr (lit "./dist/esm/a/index.js"))); ((lit "require"), (JStr (lit "./dist/cjs/a/index.js")))]))])); ((lit "sideEffects"), (JArr [(JStr (lit "./index.js")); (JStr (lit "./a.js"))]))])); (text6, (JObj [((lit "name"), (JStr (lit "exports-field"))); ((lit "version"), (JStr (lit "1.0.0"))); ((lit "main"), (JStr (lit "./main.js"))); ((lit "browser"), (JObj [((lit "./lib/main.js"), (JStr (lit "./lib/browser.js"))); ((lit "./dist/main.js"), (JStr (lit "./lib/browser.js")))])); ((lit "exports"), (JObj [((lit "."), (JStr (lit "./x.js"))); ((lit "./dist/"), (JObj [((lit "webpack"), (JArr [(JStr (lit "./lib/lib2/")); (JStr (lit "./lib/"))])); ((lit "node"), (JStr (lit "./lib/"))); ((lit "default"), (JStr (lit "./lib/")))])); ((lit "./dist/a.js"), (JStr (lit "./../../a.js")))])); ((lit "sideEffects"), (JBool false))])); (text7, (JObj [((lit "name"), (JStr (lit "exports-field"))); ((lit "version"), (JStr (lit "1.0.0"))); ((lit "main"), (JStr (lit "./main.js"))); ((lit "browser"), (JObj [((lit "./lib/main.js"), (JStr (lit "./lib/browser.js"))); ((lit "./dist/main.js"), (JStr (lit "./lib/browser.js")))])); ((lit "exports"), (JObj [((lit "."), (JStr (lit "./index.js"))); ((lit "umd"), (JStr (lit "./umd.js")))]))])); (text8, (JObj [((lit "name"), (JStr (lit "@exports-field/core"))); ((lit "version"), (JStr (lit "1.0.0"))); ((lit "exports"), (JStr (lit "./a.js")))])); (text9, (JObj [((lit "name"), (JStr (lit "exports-field"))); ((lit "version"), (JStr (lit "1.0.0"))); ((lit "exports"), (JObj [((lit "."), (JStr (lit "./a/../b/../../pack1/index.js")))]))])); (text10, (JObj [((lit "name"), (JStr (lit "exports-field"))); ((lit "version"), (JStr (lit "1.0.0"))); ((lit "main"), (JStr (lit "./main.js"))); ((lit "browser"), (JObj [((lit "./lib/main.js"), (JStr (lit "./lib/browser.js"))); ((lit "./dist/main.js"), (JStr (lit "./lib/browser.js")))])); ((lit "exports"), (JObj [((lit "."), (JStr (lit "./index.js"))); ((lit "./dist/"), (JObj [((lit "webpack"), (JArr [(JStr (lit "./lib/lib2/")); (JStr (lit "./lib/"))])); ((lit "node"), (JStr (lit "./lib/"))); ((lit "default"), (JStr (lit "./lib/")))]))]))])); (text11, (JObj [((lit "name"), (JStr (lit "exports-field"))); ((lit "exportsField"), (JObj [((lit "exports"), (JStr (lit "./main.js")))])); ((lit "ex"), (JStr (lit "./index")))])); (text12, (JObj [((lit "main"), (JStr (lit "./index.js")))])); (text13, (JObj [((lit "main"), (JStr (lit "a")))])); (text14, (JObj [((lit "browser"), (JObj [((lit "./a.js"), (JStr (lit "./b")))]))])); (text15, (JObj [((lit "name"), (JStr (lit "a"))); ((lit "version"), (JStr (lit "1.0.0"))); ((lit "main"), (JStr (lit "./main.js"))); ((lit "browser"), (JObj [((lit "./lib/main.js"), (JStr (lit "./lib/browser.js"))); ((lit "./dist/main.js"), (JStr (lit "./lib/browser.js")))])); ((lit "exports"), (JObj [((lit "."), (JStr (lit "./x.js"))); ((lit "./dist/"), (JObj [((lit "webpack"), (JArr [(JStr (lit "./lib/lib2/")); (JStr (lit "./lib/"))])); ((lit "node"), (JStr (lit "./lib/"))); ((lit "default"), (JStr (lit "./lib/")))])); ((lit "./dist/a.js"), (JStr (lit "./../../a.js")))]))])); (text16, (JObj [((lit "name"), (JStr (lit "imports-field"))); ((lit "version"), (JStr (lit "1.0.0"))); ((lit "exports"), (JStr (lit "./a.js"))); ((lit "imports"), (JObj [((lit "#imports-field"), (JStr (lit "./b.js"))); ((lit "#b"), (JStr (lit "../b.js"))); ((lit "#ccc/"), (JStr (lit "c/"))); ((lit "#c"), (JStr (lit "c"))); ((lit "#a/"), (JStr (lit "a/"))); ((lit "#c-redirect/"), (JStr (lit "#ccc/")))])); ((lit "other"), (JObj [((lit "imports"), (JObj [((lit "#b"), (JStr (lit "./a.js")))]))]))])); (text19, (JObj [((lit "sideEffects"), (JObj []))])); (text20, (JObj [((lit "sideEffects"), (JArr [(JNum (lit "1"))]))])); (text21, (JObj [((lit "main"), (JStr (lit "./src/index")))])); (text22, (JObj [((lit "main"), (JStr (lit "./src/index"))); ((lit "module"), (JStr (lit "./module.js")))])); (text23, (JObj [((lit "main"), (JStr (lit "./")))])); (text24, (JObj [((lit "main"), (JStr (lit ".")))])); (text25, (JObj [((lit "main"), (JStr (lit "c"))); ((lit "module"), (JStr (lit "a")))])); (text26, (JObj [((lit "name"), (JStr (lit "exports-field-a"))); ((lit "version"), (JStr (lit "1.0.0"))); ((lit "main"), (JStr (lit "./main.js"))); ((lit "exports"), (JObj [((lit "."), (JStr (lit "./lib/index.js"))); ((lit "./a"), (JStr (lit "./lib/a.js")))]))])); (text27, (JObj [((lit "name"), (JStr (lit "exports-field-b"))); ((lit "version"), (JStr (lit "1.0.0"))); ((lit "main"), (JStr (lit "./main.js"))); ((lit "exports"), (JObj [((lit "./b"), (JStr (lit "./index.js")))]))])); (text28, (JObj [((lit "name"), (JStr (lit "exports-field-c"))); ((lit "version"), (JStr (lit "1.0.0"))); ((lit "main"), (JStr (lit "./main.js"))); ((lit "exports"), (JObj [((lit "."), (JStr (lit "./lib/index.js"))); ((lit "./b"), (JStr (lit "./lib/b.js"))); ((lit "./c"), (JStr (lit "./lib/c.js")))]))])); (text29, (JObj [((lit "browser"), (JObj [((lit "./index.js"), (JStr (lit "./main.js")))]))])); (text30, (JObj [((lit "main"), (JStr (lit "./main.js")))])); (text31, (JObj [((lit "main"), (JStr (lit "./lib/index.js")))])); (text32, (JObj [((lit "compilerOptions"), (JObj [((lit "baseUrl"), (JStr (lit "."))); ((lit "paths"), (JObj [((lit "test0"), (JArr [(JStr (lit "./test0-success.ts"))])); ((lit "test1/*"), (JArr [(JStr (lit "./test1-success.ts"))])); ((lit "test2/*"), (JArr [(JStr (lit "./test2-success/*"))])); ((lit "t*t3/foo"), (JArr [(JStr (lit "./test3-succ*s.ts"))])); ((lit "test4/*"), (JArr [(JStr (lit "./test4-first/*")); (JStr (lit "./test4-second/*"))])); ((lit "test5/*"), (JArr [(JStr (lit "./test5-first/*")); (JStr (lit "./test5-second/*"))])); ((lit "/virtual-in/test"), (JArr [(JStr (lit "./actual/test"))])); ((lit "/virtual-in-star/*"), (JArr [(JStr (lit "./actual/*"))]))]))]))])); (text33, (JObj [((lit "compilerOptions"), (JObj [((lit "paths"), (JObj [((lit "foo"), (JArr [(JStr (lit "./test.ts"))]))]))]))])); (text34, (JObj [((lit "extends"), (JStr (lit "module/tsconfig.json"))); ((lit "compilerOptions"), (JObj [((lit "baseUrl"), (JStr (lit "./src")))]))])); (text35, (JObj [((lit "extends"), (JStr (lit "@scope/module/tsconfig.json"))); ((lit "compilerOptions"), (JObj [((lit "baseUrl"), (JStr (lit "./src")))]))])); (text36, (JObj [((lit "extends"), (JStr (lit "./tsconfig.paths.json"))); ((lit "compilerOptions"), (JObj []))])); (text37, (JObj [((lit "compilerOptions"), (JObj [((lit "paths"), (JObj [((lit "#/*"), (JArr [(JStr (lit "./*"))]))]))]))])); (text38, (JObj [((lit "compilerOptions"), (JObj [((lit "baseUrl"), (JStr (lit "nested"))); ((lit "paths"), (JObj [((lit "test0"), (JArr [(JStr (lit "./test0-success.ts"))])); ((lit "test1/*"), (JArr [(JStr (lit "./test1-success.ts"))])); ((lit "test2/*"), (JArr [(JStr (lit "./test2-success/*"))])); ((lit "t*t3/foo"), (JArr [(JStr (lit "./test3-succ*s.ts"))])); ((lit "test4/*"), (JArr [(JStr (lit "./test4-first/*")); (JStr (lit "./test4-second/*"))])); ((lit "test5/*"), (JArr [(JStr (lit "./test5-first/*")); (JStr (lit "./test5-second/*"))])); ((lit "/virtual-in/test"), (JArr [(JStr (lit "./actual/test"))])); ((lit "/virtual-in-star/*"), (JArr [(JStr (lit "./actual/*"))]))]))]))])); (text39, (JObj [((lit "extends"), (JStr (lit "./tsconfig.paths.json"))); ((lit "compilerOptions"), (JObj [((lit "baseUrl"), (JStr (lit "./src")))]))])); (text40, (JObj [((lit "compilerOptions"), (JObj [((lit "paths"), (JObj [((lit "test"), (JArr [(JStr (lit ".")); (JStr (lit "..")); (JStr (lit "./good")); (JStr (lit ".\good")); (JStr (lit "../good")); (JStr (lit "..\good")); (JStr (lit "/good")); (JStr (lit "\good")); (JStr (lit "c:/good")); (JStr (lit "c:\good")); (JStr (lit "C:/good")); (JStr (lit "C:\good")); (JStr (lit "bad")); (JStr (lit "@bad/core")); (JStr (lit ".*/bad")); (JStr (lit "..*/bad")); (JStr (lit "c*:\bad")); (JStr (lit "c:*\bad")); (JStr (lit "http://bad"))]))]))]))])); (text41, (JObj [((lit "main"), (JStr (lit "module.js")))]))].
Definition js : str -> option json := from_str (fun l => Some l).
Example texts_read : map (fun e => js (fst e)) json_table = map snd json_table.
Proof. vm_compute. reflexivity. Qed.
Definition jsc (s : str) : jsonc_res :=
  match imap_get jsonc_table s with Some j => JCVal j | None => JCErr (lit "x") end.
Definition FUEL := 60.

Inductive expect := XEq (p : path) | XIgnored | XErr (m : str).
Definition check_one (x : expect) (r : outcome (result rresult)) : bool :=
  match x, r with
  | XEq p, Done (Ok (RInfo i)) => path_eqb (info_join i) p
  | XIgnored, Done (Ok RIgnored) => true
  | XErr m, Done (Err e) => contains e m
  | _, _ => false
  end.
Fixpoint check (fs : fsys) (l : list (resolver * path * str * expect)) (st : state) : list bool :=
  match l with
  | [] => []
  | (R, base, req, x) :: r =>
      let (o, st') := run fs (resolve R FUEL base req) st in
      check_one x o :: check fs r st'
  end.
Definition all_ok (l : list (resolver * path * str * expect)) : bool :=
  forallb (fun b => b) (check fs0 l (empty_state (fun _ => []))).

Definition extensions_test_rows :=
  let R0 := (new_resolver (mkOpts [(lit ".ts"); (lit ".js")] None [] false true (Some (lit "package.json")) [(lit "index")] [(lit "main")] false [(lit "node")] None) 50 0 true js jsc) in
  let R1 := (new_resolver (mkOpts [(lit "ts"); (lit ".js")] None [] false true (Some (lit "package.json")) [(lit "index")] [(lit "main")] false [(lit "node")] None) 51 1 true js jsc) in
  let R2 := (new_resolver (mkOpts [(lit ".js"); (lit ""); (lit ".ts")] None [] false true (Some (lit "package.json")) [(lit "index")] [(lit "main")] false [(lit "node")] None) 52 2 true js jsc) in
  let R3 := (new_resolver (mkOpts [(lit ".js"); (lit ""); (lit ".ts")] (Some false) [] false true (Some (lit "package.json")) [(lit "index")] [(lit "main")] false [(lit "node")] None) 53 3 true js jsc) in
  [(R0, (lit "/r/tests/fixtures/extensions/./a"), (lit ""), XEq (lit "/r/tests/fixtures/extensions/a.ts"));
   (R0, (lit "/r/tests/fixtures/extensions"), (lit "./a"), XEq (lit "/r/tests/fixtures/extensions/a.ts"));
   (R0, (lit "/r/tests/fixtures/extensions"), (lit "./a.js"), XEq (lit "/r/tests/fixtures/extensions/a.js"));
   (R0, (lit "/r/tests/fixtures/extensions"), (lit "./dir"), XEq (lit "/r/tests/fixtures/extensions/dir/index.ts"));
   (R0, (lit "/r/tests/fixtures/extensions"), (lit "."), XEq (lit "/r/tests/fixtures/extensions/index.js"));
   (R0, (lit "/r/tests/fixtures/extensions/index"), (lit "."), XEq (lit "/r/tests/fixtures/extensions/index.ts"));
   (R0, (lit "/r/tests/fixtures/extensions/index.js"), (lit "."), XEq (lit "/r/tests/fixtures/extensions/index.js"));
   (R0, (lit "/r/tests/fixtures/extensions/index."), (lit "."), XErr (lit "Resolve '.' failed in '/r/tests/fixtures/extensions/index.'"));
   (R0, (lit "/r/tests/fixtures/extensions/inde"), (lit "."), XErr (lit "Resolve '.' failed in '/r/tests/fixtures/extensions/inde'"));
   (R0, (lit "/r/tests/fixtures/extensions"), (lit "m"), XEq (lit "/r/tests/fixtures/extensions/node_modules/m.js"));
   (R0, (lit "/r/tests/fixtures/extensions"), (lit "m/"), XEq (lit "/r/tests/fixtures/extensions/node_modules/m/index.ts"));
   (R0, (lit "/r/tests/fixtures/extensions"), (lit "./b.js"), XErr (lit "Resolve './b.js' failed in '/r/tests/fixtures/extensions'"));
   (R0, (lit "/r/tests/fixtures/extensions"), (lit "fs"), XErr (lit "Resolve 'fs' failed in '/r/tests/fixtures/extensions'"));
   (R0, (lit "/r/tests/fixtures/extensions"), (lit "./a.js/"), XErr (lit "Resolve './a.js/' failed in '/r/tests/fixtures/extensions'"));
   (R0, (lit "/r/tests/fixtures/extensions"), (lit "m.js/"), XErr (lit "Resolve 'm.js/' failed in '/r/tests/fixtures/extensions'"));
   (R1, (lit "/r/tests/fixtures/extensions/./a"), (lit ""), XEq (lit "/r/tests/fixtures/extensions/a.js"));
   (R1, (lit "/r/tests/fixtures/extensions"), (lit "./a"), XEq (lit "/r/tests/fixtures/extensions/a.js"));
   (R1, (lit "/r/tests/fixtures/extensions"), (lit "./a.js"), XEq (lit "/r/tests/fixtures/extensions/a.js"));
   (R1, (lit "/r/tests/fixtures/extensions"), (lit "./dir"), XEq (lit "/r/tests/fixtures/extensions/dir/index.js"));
   (R1, (lit "/r/tests/fixtures/extensions"), (lit "."), XEq (lit "/r/tests/fixtures/extensions/index.js"));
   (R1, (lit "/r/tests/fixtures/extensions/index"), (lit "."), XEq (lit "/r/tests/fixtures/extensions/index.js"));
   (R1, (lit "/r/tests/fixtures/extensions/index.js"), (lit "."), XEq (lit "/r/tests/fixtures/extensions/index.js"));
   (R1, (lit "/r/tests/fixtures/extensions/index."), (lit "."), XEq (lit "/r/tests/fixtures/extensions/index.ts"));
   (R1, (lit "/r/tests/fixtures/extensions/inde"), (lit "."), XErr (lit "Resolve '.' failed in '/r/tests/fixtures/extensions/inde'"));
   (R1, (lit "/r/tests/fixtures/extensions"), (lit "m"), XEq (lit "/r/tests/fixtures/extensions/node_modules/m.js"));
   (R1, (lit "/r/tests/fixtures/extensions"), (lit "m/"), XEq (lit "/r/tests/fixtures/extensions/node_modules/m/index.js"));
   (R1, (lit "/r/tests/fixtures/extensions"), (lit "./b.js"), XErr (lit "Resolve './b.js' failed in '/r/tests/fixtures/extensions'"));
   (R1, (lit "/r/tests/fixtures/extensions"), (lit "fs"), XErr (lit "Resolve 'fs' failed in '/r/tests/fixtures/extensions'"));
   (R1, (lit "/r/tests/fixtures/extensions"), (lit "./a.js/"), XErr (lit "Resolve './a.js/' failed in '/r/tests/fixtures/extensions'"));
   (R1, (lit "/r/tests/fixtures/extensions"), (lit "m.js/"), XErr (lit "Resolve 'm.js/' failed in '/r/tests/fixtures/extensions'"));
   (R2, (lit "/r/tests/fixtures/extensions2"), (lit "./a"), XEq (lit "/r/tests/fixtures/extensions2/a.js"));
   (R2, (lit "/r/tests/fixtures/extensions2"), (lit "./a.js"), XEq (lit "/r/tests/fixtures/extensions2/a.js"));
   (R2, (lit "/r/tests/fixtures/extensions2"), (lit "."), XEq (lit "/r/tests/fixtures/extensions2/index.js"));
   (R2, (lit "/r/tests/fixtures/extensions2"), (lit "./index"), XEq (lit "/r/tests/fixtures/extensions2/index.js"));
   (R2, (lit "/r/tests/fixtures/extensions2"), (lit "./b"), XEq (lit "/r/tests/fixtures/extensions2/b"));
   (R3, (lit "/r/tests/fixtures/extensions2"), (lit "./a"), XEq (lit "/r/tests/fixtures/extensions2/a"));
   (R3, (lit "/r/tests/fixtures/extensions2"), (lit "./a.js"), XEq (lit "/r/tests/fixtures/extensions2/a.js"));
   (R3, (lit "/r/tests/fixtures/extensions2"), (lit "."), XEq (lit "/r/tests/fixtures/extensions2/index.js"));
   (R3, (lit "/r/tests/fixtures/extensions2"), (lit "./index"), XEq (lit "/r/tests/fixtures/extensions2/index"));
   (R3, (lit "/r/tests/fixtures/extensions2"), (lit "./b"), XEq (lit "/r/tests/fixtures/extensions2/b"))].
Example extensions_test : all_ok extensions_test_rows = true.
Proof. vm_compute. reflexivity. Qed.

Definition alias_test_rows :=
  let R0 := (new_resolver (mkOpts [(lit ".js"); (lit ".json"); (lit ".node")] None [((lit "aliasA"), (ATarget (lit "./a"))); ((lit "./b$"), (ATarget (lit "./a/index"))); ((lit "recursive"), (ATarget (lit "./recursive/dir"))); ((lit "#"), (ATarget (lit "./c/dir"))); ((lit "@"), (ATarget (lit "./c/dir"))); ((lit "@start"), (ATarget (lit "/r/tests/fixtures/alias"))); ((lit "@recursive/pointed"), (ATarget (lit "@recursive/general/index.js"))); ((lit "@recursive/general"), (ATarget (lit "@recursive/general/redirect.js"))); ((lit "@recursive"), (ATarget (lit "@recursive/general"))); ((lit "ignore"), AIgnored)] false true (Some (lit "package.json")) [(lit "index")] [(lit "main")] false [(lit "node")] None) 50 0 true js jsc) in
  let R1 := (new_resolver (mkOpts [(lit ".js"); (lit ".json"); (lit ".node")] None [((lit "@A/index"), (ATarget (lit "./a"))); ((lit "@A"), (ATarget (lit "./b")))] false true (Some (lit "package.json")) [(lit "index")] [(lit "main")] false [(lit "node")] None) 51 1 true js jsc) in
  let R2 := (new_resolver (mkOpts [(lit ".js"); (lit ".json"); (lit ".node")] None [((lit "@A"), (ATarget (lit "./b"))); ((lit "@A/index"), (ATarget (lit "./a")))] false true (Some (lit "package.json")) [(lit "index")] [(lit "main")] false [(lit "node")] None) 52 2 true js jsc) in
  [(R0, (lit "/r/tests/fixtures/alias"), (lit "@recursive/index"), XEq (lit "/r/tests/fixtures/alias/node_modules/@recursive/general/index.js"));
   (R0, (lit "/r/tests/fixtures/alias"), (lit "@recursive/general"), XEq (lit "/r/tests/fixtures/alias/node_modules/@recursive/general/redirect.js"));
   (R0, (lit "/r/tests/fixtures/alias"), (lit "@recursive/pointed"), XEq (lit "/r/tests/fixtures/alias/node_modules/@recursive/general/index.js"));
   (R0, (lit "/r/tests/fixtures/in_exist_path"), (lit "@start/a"), XEq (lit "/r/tests/fixtures/alias/a/index"));
   (R0, (lit "/r/tests/fixtures/alias"), (lit "./a"), XEq (lit "/r/tests/fixtures/alias/a/index"));
   (R0, (lit "/r/tests/fixtures/alias"), (lit "./a/index"), XEq (lit "/r/tests/fixtures/alias/a/index"));
   (R0, (lit "/r/tests/fixtures/alias"), (lit "./a/dir"), XEq (lit "/r/tests/fixtures/alias/a/dir/index"));
   (R0, (lit "/r/tests/fixtures/alias"), (lit "./a/dir/index"), XEq (lit "/r/tests/fixtures/alias/a/dir/index"));
   (R0, (lit "/r/tests/fixtures/alias"), (lit "aliasA"), XEq (lit "/r/tests/fixtures/alias/a/index"));
   (R0, (lit "/r/tests/fixtures/alias"), (lit "aliasA/index"), XEq (lit "/r/tests/fixtures/alias/a/index"));
   (R0, (lit "/r/tests/fixtures/alias"), (lit "aliasA/dir"), XEq (lit "/r/tests/fixtures/alias/a/dir/index"));
   (R0, (lit "/r/tests/fixtures/alias"), (lit "aliasA/dir/index"), XEq (lit "/r/tests/fixtures/alias/a/dir/index"));
   (R0, (lit "/r/tests/fixtures/alias"), (lit "#"), XEq (lit "/r/tests/fixtures/alias/c/dir/index"));
   (R0, (lit "/r/tests/fixtures/alias"), (lit "#/index"), XEq (lit "/r/tests/fixtures/alias/c/dir/index"));
   (R0, (lit "/r/tests/fixtures/alias"), (lit "@"), XEq (lit "/r/tests/fixtures/alias/c/dir/index"));
   (R0, (lit "/r/tests/fixtures/alias"), (lit "@/index"), XEq (lit "/r/tests/fixtures/alias/c/dir/index"));
   (R0, (lit "/r/tests/fixtures/alias"), (lit "@/a.js"), XErr (lit "Resolve '@/a.js' failed in '/r/tests/fixtures/alias'"));
   (R0, (lit "/r/tests/fixtures/alias"), (lit "recursive"), XEq (lit "/r/tests/fixtures/alias/recursive/dir/index"));
   (R0, (lit "/r/tests/fixtures/alias"), (lit "recursive/index"), XEq (lit "/r/tests/fixtures/alias/recursive/dir/index"));
   (R0, (lit "/r/tests/fixtures/in_exist_path"), (lit "@start/a"), XEq (lit "/r/tests/fixtures/alias/a/index"));
   (R0, (lit "@start/a"), (lit ""), XErr (lit "Resolve '' failed in '@start/a'"));
   (R0, (lit "/r/tests/fixtures/alias"), (lit "./b/index"), XEq (lit "/r/tests/fixtures/alias/b/index"));
   (R0, (lit "/r/tests/fixtures/alias"), (lit "./b/dir"), XEq (lit "/r/tests/fixtures/alias/b/dir/index"));
   (R0, (lit "/r/tests/fixtures/alias"), (lit "./b/dir/index"), XEq (lit "/r/tests/fixtures/alias/b/dir/index"));
   (R0, (lit "/r/tests/fixtures/alias"), (lit "./c/index"), XEq (lit "/r/tests/fixtures/alias/c/index"));
   (R0, (lit "/r/tests/fixtures/alias"), (lit "./c/dir"), XEq (lit "/r/tests/fixtures/alias/c/dir/index"));
   (R0, (lit "/r/tests/fixtures/alias"), (lit "./c/dir/index"), XEq (lit "/r/tests/fixtures/alias/c/dir/index"));
   (R0, (lit "/r/tests/fixtures/alias"), (lit "ignore"), XIgnored);
   (R1, (lit "/r/tests/fixtures/alias"), (lit "@A/index"), XEq (lit "/r/tests/fixtures/alias/a/index"));
   (R2, (lit "/r/tests/fixtures/alias"), (lit "@A/index"), XEq (lit "/r/tests/fixtures/alias/b/index"))].
Example alias_test : all_ok alias_test_rows = true.
Proof. vm_compute. reflexivity. Qed.

Definition symlink_test_rows :=
  let R0 := (new_resolver (mkOpts [(lit ".js"); (lit ".json"); (lit ".node")] None [] false true (Some (lit "package.json")) [(lit "index")] [(lit "main")] false [(lit "node")] None) 50 0 true js jsc) in
  let R1 := (new_resolver (mkOpts [(lit ".js"); (lit ".json"); (lit ".node")] None [] false false (Some (lit "package.json")) [(lit "index")] [(lit "main")] false [(lit "node")] None) 51 1 true js jsc) in
  [(R0, (lit "/r/tests/fixtures/symlink/linked"), (lit "./index.js"), XEq (lit "/r/tests/fixtures/symlink/lib/index.js"));
   (R0, (lit "/r/tests/fixtures/symlink/linked"), (lit "./node.relative.js"), XEq (lit "/r/tests/fixtures/symlink/lib/index.js"));
   (R0, (lit "/r/tests/fixtures/symlink/linked"), (lit "./node.relative.sym.js"), XEq (lit "/r/tests/fixtures/symlink/lib/index.js"));
   (R0, (lit "/r/tests/fixtures/symlink/linked"), (lit "./this/lib/index.js"), XEq (lit "/r/tests/fixtures/symlink/lib/index.js"));
   (R0, (lit "/r/tests/fixtures/symlink/linked"), (lit "./this/this/index.js"), XEq (lit "/r/tests/fixtures/symlink/lib/index.js"));
   (R0, (lit "/r/tests/fixtures/symlink/linked"), (lit "./outer/lib/index.js"), XEq (lit "/r/tests/fixtures/symlink/lib/index.js"));
   (R0, (lit "/r/tests/fixtures/symlink/linked"), (lit "./outer/linked/index.js"), XEq (lit "/r/tests/fixtures/symlink/lib/index.js"));
   (R0, (lit "/r/tests/fixtures/symlink/linked"), (lit "./outer/linked/this/index.js"), XEq (lit "/r/tests/fixtures/symlink/lib/index.js"));
   (R0, (lit "/r/tests/fixtures/symlink/linked"), (lit "./outer/linked/this/lib/index.js"), XEq (lit "/r/tests/fixtures/symlink/lib/index.js"));
   (R0, (lit "/r/tests/fixtures/symlink/linked"), (lit "./that/lib/index.js"), XEq (lit "/r/tests/fixtures/symlink/lib/index.js"));
   (R0, (lit "/r/tests/fixtures/symlink/linked"), (lit "./that/outer/lib/index.js"), XEq (lit "/r/tests/fixtures/symlink/lib/index.js"));
   (R0, (lit "/r/tests/fixtures/symlink/linked"), (lit "./that/outer/linked/lib/index.js"), XEq (lit "/r/tests/fixtures/symlink/lib/index.js"));
   (R0, (lit "/r/tests/fixtures/symlink/linked"), (lit "./that/outer/linked/that/lib/index.js"), XEq (lit "/r/tests/fixtures/symlink/lib/index.js"));
   (R0, (lit "/r/tests/fixtures/symlink"), (lit "./lib/index.js"), XEq (lit "/r/tests/fixtures/symlink/lib/index.js"));
   (R0, (lit "/r/tests/fixtures/symlink/linked/this"), (lit "./lib/index.js"), XEq (lit "/r/tests/fixtures/symlink/lib/index.js"));
   (R0, (lit "/r/tests/fixtures/symlink/linked/this"), (lit "./outer/linked/lib/index.js"), XEq (lit "/r/tests/fixtures/symlink/lib/index.js"));
   (R0, (lit "/r/tests/fixtures/symlink/linked/this/lib"), (lit "./index.js"), XEq (lit "/r/tests/fixtures/symlink/lib/index.js"));
   (R0, (lit "/r/tests/fixtures/symlink/linked/this/outer/linked"), (lit "./index.js"), XEq (lit "/r/tests/fixtures/symlink/lib/index.js"));
   (R0, (lit "/r/tests/fixtures/symlink/linked/this/outer/linked"), (lit "./lib/index.js"), XEq (lit "/r/tests/fixtures/symlink/lib/index.js"));
   (R0, (lit "/r/tests/fixtures/symlink/linked/that"), (lit "./lib/index.js"), XEq (lit "/r/tests/fixtures/symlink/lib/index.js"));
   (R0, (lit "/r/tests/fixtures/symlink/linked/that"), (lit "./outer/linked/lib/index.js"), XEq (lit "/r/tests/fixtures/symlink/lib/index.js"));
   (R0, (lit "/r/tests/fixtures/symlink/linked/that/lib"), (lit "./index.js"), XEq (lit "/r/tests/fixtures/symlink/lib/index.js"));
   (R0, (lit "/r/tests/fixtures/symlink/linked/that/outer/linked"), (lit "./index.js"), XEq (lit "/r/tests/fixtures/symlink/lib/index.js"));
   (R0, (lit "/r/tests/fixtures/symlink/linked/that/outer/linked"), (lit "./lib/index.js"), XEq (lit "/r/tests/fixtures/symlink/lib/index.js"));
   (R1, (lit "/r/tests/fixtures/symlink/linked"), (lit "./index.js"), XEq (lit "/r/tests/fixtures/symlink/linked/index.js"));
   (R1, (lit "/r/tests/fixtures/symlink/linked"), (lit "./this/this/index.js"), XEq (lit "/r/tests/fixtures/symlink/linked/this/this/index.js"))].
Example symlink_test : all_ok symlink_test_rows = true.
Proof. vm_compute. reflexivity. Qed.

Definition simple_test_rows :=
  let R0 := (new_resolver (mkOpts [(lit ".js"); (lit ".json"); (lit ".node")] None [] false true (Some (lit "package.json")) [(lit "index")] [(lit "main")] false [(lit "node")] None) 50 0 true js jsc) in
  [(R0, (lit "/r/tests/fixtures/in-exist-path"), (lit "/r/tests/fixtures/simple/lib/index"), XEq (lit "/r/tests/fixtures/simple/lib/index.js"));
   (R0, (lit "/r/tests/fixtures/simple"), (lit "./lib/index"), XEq (lit "/r/tests/fixtures/simple/lib/index.js"));
   (R0, (lit "/r/tests/fixtures/simple"), (lit "."), XEq (lit "/r/tests/fixtures/simple/lib/index.js"));
   (R0, (lit "/r/tests/fixtures/simple"), (lit ""), XEq (lit "/r/tests/fixtures/simple/lib/index.js"));
   (R0, (lit "/r/tests/fixtures/simple/.."), (lit "./simple"), XEq (lit "/r/tests/fixtures/simple/lib/index.js"));
   (R0, (lit "/r/tests/fixtures/simple/.."), (lit "./simple/lib/index"), XEq (lit "/r/tests/fixtures/simple/lib/index.js"));
   (R0, (lit "/r/tests/fixtures/in-exist-path"), (lit "/r/tests/fixtures/simple/lib/index"), XEq (lit "/r/tests/fixtures/simple/lib/index.js"))].
Example simple_test : all_ok simple_test_rows = true.
Proof. vm_compute. reflexivity. Qed.

Definition pnpm_structure_test_rows :=
  let R0 := (new_resolver (mkOpts [(lit ".js"); (lit ".json"); (lit ".node")] None [] false true (Some (lit "package.json")) [(lit "index")] [(lit "main")] false [(lit "node")] None) 50 0 true js jsc) in
  [(R0, (lit "/r/tests/fixtures/pnpm-structure/node_modules/exports-field-c/lib"), (lit "exports-field-b/b"), XEq (lit "/r/tests/fixtures/pnpm-structure/node_modules/exports-field-b/index.js"));
   (R0, (lit "/r/tests/fixtures/pnpm-structure/node_modules/exports-field-c"), (lit "./b"), XErr (lit "Resolve './b' failed in '/r/tests/fixtures/pnpm-structure/node_modules/exports-field-c'"));
   (R0, (lit "/r/tests/fixtures/pnpm-structure/node_modules/exports-field-c/lib"), (lit "./b"), XEq (lit "/r/tests/fixtures/pnpm-structure/node_modules/exports-field-c/lib/b.js"));
   (R0, (lit "/r/tests/fixtures/pnpm-structure/node_modules/exports-field-a/lib"), (lit "exports-field-b/b"), XEq (lit "/r/tests/fixtures/pnpm-structure/node_modules/exports-field-b/index.js"));
   (R0, (lit "/r/tests/fixtures/pnpm-structure/node_modules/exports-field-a"), (lit "exports-field-b/b"), XEq (lit "/r/tests/fixtures/pnpm-structure/node_modules/exports-field-b/index.js"));
   (R0, (lit "/r/tests/fixtures/pnpm-structure/node_modules/exports-field-a"), (lit "./lib"), XEq (lit "/r/tests/fixtures/pnpm-structure/node_modules/exports-field-a/lib/index.js"));
   (R0, (lit "/r/tests/fixtures/pnpm-structure/node_modules/exports-field-a"), (lit "exports-field-b"), XErr (lit "Package path exports-field-b is not exported"));
   (R0, (lit "/r/tests/fixtures/pnpm-structure/module-a"), (lit "module-b"), XEq (lit "/r/tests/fixtures/pnpm-structure/node_modules/module-b/index.js"));
   (R0, (lit "/r/tests/fixtures/pnpm-structure/node_modules/module-a"), (lit "module-b"), XEq (lit "/r/tests/fixtures/pnpm-structure/node_modules/module-b/index.js"))].
Example pnpm_structure_test : all_ok pnpm_structure_test_rows = true.
Proof. vm_compute. reflexivity. Qed.

Definition resolve_test_rows :=
  let R0 := (new_resolver (mkOpts [(lit ".js"); (lit ".json"); (lit ".node")] None [] false true (Some (lit "package.json")) [(lit "index")] [(lit "main")] false [(lit "node")] None) 50 0 true js jsc) in
  [(R0, (lit "/r/tests/fixtures"), (lit "m1/a.js"), XEq (lit "/r/tests/fixtures/node_modules/m1/a.js"));
   (R0, (lit "/r/tests/fixtures"), (lit "/r/tests/fixtures/main1.js"), XEq (lit "/r/tests/fixtures/main1.js"));
   (R0, (lit "/r/tests/fixtures"), (lit "./main1.js"), XEq (lit "/r/tests/fixtures/main1.js"));
   (R0, (lit "/r/tests/fixtures"), (lit "./main1"), XEq (lit "/r/tests/fixtures/main1.js"));
   (R0, (lit "/r/tests/fixtures"), (lit "./main1.js?query"), XEq (lit "/r/tests/fixtures/main1.js?query"));
   (R0, (lit "/r/tests/fixtures"), (lit "./main1.js#fragment"), XEq (lit "/r/tests/fixtures/main1.js#fragment"));
   (R0, (lit "/r/tests/fixtures"), (lit "./main1.js#fragment?query"), XEq (lit "/r/tests/fixtures/main1.js#fragment?query"));
   (R0, (lit "/r/tests/fixtures"), (lit "./main1.js?#fragment"), XEq (lit "/r/tests/fixtures/main1.js?#fragment"));
   (R0, (lit "/r/tests/fixtures"), (lit "./a.js"), XEq (lit "/r/tests/fixtures/a.js"));
   (R0, (lit "/r/tests/fixtures"), (lit "./a"), XEq (lit "/r/tests/fixtures/a.js"));
   (R0, (lit "/r/tests/fixtures"), (lit "m1/a.js"), XEq (lit "/r/tests/fixtures/node_modules/m1/a.js"));
   (R0, (lit "/r/tests/fixtures"), (lit "m1/a"), XEq (lit "/r/tests/fixtures/node_modules/m1/a.js"));
   (R0, (lit "/r/tests/fixtures"), (lit "m1/a?query"), XEq (lit "/r/tests/fixtures/node_modules/m1/a.js?query"));
   (R0, (lit "/r/tests/fixtures"), (lit "m1/a#fragment"), XEq (lit "/r/tests/fixtures/node_modules/m1/a.js#fragment"));
   (R0, (lit "/r/tests/fixtures"), (lit "m1/a#fragment?query"), XEq (lit "/r/tests/fixtures/node_modules/m1/a.js#fragment?query"));
   (R0, (lit "/r/tests/fixtures"), (lit "m1/a?#fragment"), XEq (lit "/r/tests/fixtures/node_modules/m1/a.js?#fragment"));
   (R0, (lit "/r/tests/fixtures"), (lit "./dirOrFile"), XEq (lit "/r/tests/fixtures/dirOrFile.js"));
   (R0, (lit "/r/tests/fixtures"), (lit "./dirOrFile/"), XEq (lit "/r/tests/fixtures/dirOrFile/index.js"));
   (R0, (lit "/r/tests/fixtures"), (lit "complexm/step1"), XEq (lit "/r/tests/fixtures/node_modules/complexm/step1.js"));
   (R0, (lit "/r/tests/fixtures"), (lit "m2/b.js"), XEq (lit "/r/tests/fixtures/node_modules/m2/b.js"));
   (R0, (lit "/r/tests/fixtures"), (lit "./no#fragment/#/"), XEq (lit "/r/tests/fixtures/no.js#fragment/#"));
   (R0, (lit "/r/tests/fixtures/node_modules/complexm/web_modules/m1"), (lit "m2/b.js"), XEq (lit "/r/tests/fixtures/node_modules/m2/b.js"));
   (R0, (lit "/r/tests/fixtures/multiple_modules"), (lit "m1/a.js"), XEq (lit "/r/tests/fixtures/multiple_modules/node_modules/m1/a.js"));
   (R0, (lit "/r/tests/fixtures/multiple_modules"), (lit "m1/b.js"), XEq (lit "/r/tests/fixtures/node_modules/m1/b.js"));
   (R0, (lit "/r/tests/fixtures/browser-module/node_modules"), (lit "m1/a"), XEq (lit "/r/tests/fixtures/node_modules/m1/a.js"))].
Example resolve_test : all_ok resolve_test_rows = true.
Proof. vm_compute. reflexivity. Qed.

Definition browser_filed_test_rows :=
  let R0 := (new_resolver (mkOpts [(lit ".js"); (lit ".json"); (lit ".node")] None [] false true (Some (lit "package.json")) [(lit "index")] [(lit "main")] true [(lit "node")] None) 50 0 true js jsc) in
  [(R0, (lit "/r/tests/fixtures/browser-after-main"), (lit "."), XIgnored);
   (R0, (lit "/r/tests/fixtures"), (lit "./browser-after-main"), XIgnored);
   (R0, (lit "/r/tests/fixtures/browser-module"), (lit "./lib/redirect2"), XEq (lit "/r/tests/fixtures/browser-module/lib/sub/dir/index.js"));
   (R0, (lit "/r/tests/fixtures/browser-module"), (lit "."), XIgnored);
   (R0, (lit "/r/tests/fixtures/browser-module"), (lit "./lib/ignore"), XIgnored);
   (R0, (lit "/r/tests/fixtures/browser-module"), (lit "./lib/ignore.js"), XIgnored);
   (R0, (lit "/r/tests/fixtures/browser-module"), (lit "./util.inspect"), XIgnored);
   (R0, (lit "/r/tests/fixtures/browser-module"), (lit "./util.inspect.js"), XIgnored);
   (R0, (lit "/r/tests/fixtures/browser-module"), (lit "./lib/replaced"), XEq (lit "/r/tests/fixtures/browser-module/lib/browser.js"));
   (R0, (lit "/r/tests/fixtures/browser-module"), (lit "./lib/replaced.js"), XEq (lit "/r/tests/fixtures/browser-module/lib/browser.js"));
   (R0, (lit "/r/tests/fixtures/browser-module"), (lit "module-a"), XEq (lit "/r/tests/fixtures/browser-module/browser/module-a.js"));
   (R0, (lit "/r/tests/fixtures/browser-module"), (lit "module-b"), XEq (lit "/r/tests/fixtures/browser-module/node_modules/module-c.js"));
   (R0, (lit "/r/tests/fixtures/browser-module"), (lit "module-d"), XEq (lit "/r/tests/fixtures/browser-module/node_modules/module-c.js"));
   (R0, (lit "/r/tests/fixtures/browser-module"), (lit "./toString"), XEq (lit "/r/tests/fixtures/browser-module/lib/toString.js"));
   (R0, (lit "/r/tests/fixtures/browser-module"), (lit "toString"), XErr (lit "Resolve 'toString' failed in '/r/tests/fixtures/browser-module'"));
   (R0, (lit "/r/tests/fixtures/browser-module"), (lit "./toString.js"), XErr (lit "Resolve './toString.js' failed in '/r/tests/fixtures/browser-module'"));
   (R0, (lit "/r/tests/fixtures/browser-module"), (lit "./lib/redirect"), XEq (lit "/r/tests/fixtures/browser-module/lib/sub.js"));
   (R0, (lit "/r/tests/fixtures/browser-module"), (lit "./lib/redirect2"), XEq (lit "/r/tests/fixtures/browser-module/lib/sub/dir/index.js"));
   (R0, (lit "/r/tests/fixtures/browser-module"), (lit "./lib/redirect3"), XEq (lit "/r/tests/fixtures/browser-module/lib/redirect3-target/dir/index.js"));
   (R0, (lit "/r/tests/fixtures/browser-module/lib"), (lit "./ignore"), XIgnored);
   (R0, (lit "/r/tests/fixtures/browser-module/lib"), (lit "./ignore.js"), XIgnored);
   (R0, (lit "/r/tests/fixtures/browser-module/lib"), (lit "./toString"), XEq (lit "/r/tests/fixtures/browser-module/lib/toString.js"));
   (R0, (lit "/r/tests/fixtures/browser-module/lib"), (lit "./toString.js"), XEq (lit "/r/tests/fixtures/browser-module/lib/toString.js"));
   (R0, (lit "/r/tests/fixtures/browser-module/lib"), (lit "./replaced"), XEq (lit "/r/tests/fixtures/browser-module/lib/browser.js"));
   (R0, (lit "/r/tests/fixtures/browser-module/lib"), (lit "./replaced.js"), XEq (lit "/r/tests/fixtures/browser-module/lib/browser.js"));
   (R0, (lit "/r/tests/fixtures/browser-module/lib"), (lit "module-a"), XEq (lit "/r/tests/fixtures/browser-module/browser/module-a.js"));
   (R0, (lit "/r/tests/fixtures/browser-module/lib"), (lit "module-b"), XEq (lit "/r/tests/fixtures/browser-module/node_modules/module-c.js"));
   (R0, (lit "/r/tests/fixtures/browser-module/lib"), (lit "module-d"), XEq (lit "/r/tests/fixtures/browser-module/node_modules/module-c.js"));
   (R0, (lit "/r/tests/fixtures/browser-module/lib"), (lit "./redirect"), XEq (lit "/r/tests/fixtures/browser-module/lib/sub.js"));
   (R0, (lit "/r/tests/fixtures/browser-module/lib"), (lit "./redirect2"), XEq (lit "/r/tests/fixtures/browser-module/lib/sub/dir/index.js"));
   (R0, (lit "/r/tests/fixtures/browser-module/lib"), (lit "./redirect3"), XEq (lit "/r/tests/fixtures/browser-module/lib/redirect3-target/dir/index.js"));
   (R0, (lit "/r/tests/fixtures/browser-after-main"), (lit "."), XIgnored);
   (R0, (lit "/r/tests/fixtures"), (lit "./browser-after-main"), XIgnored)].
Example browser_filed_test : all_ok browser_filed_test_rows = true.
Proof. vm_compute. reflexivity. Qed.

Definition dependencies_test_rows :=
  let R0 := (new_resolver (mkOpts [(lit ".json"); (lit ".js")] None [] false true (Some (lit "package.json")) [(lit "index")] [(lit "main")] false [(lit "node")] None) 50 0 true js jsc) in
  [(R0, (lit "/r/tests/fixtures/dependencies/a/b/c"), (lit "some-module/index"), XEq (lit "/r/tests/fixtures/dependencies/a/b/node_modules/some-module/index.js"));
   (R0, (lit "/r/tests/fixtures/dependencies/a/b/c"), (lit "module/file"), XEq (lit "/r/tests/fixtures/dependencies/a/node_modules/module/file.js"));
   (R0, (lit "/r/tests/fixtures/dependencies/a/b/c"), (lit "other-module/file.js"), XEq (lit "/r/tests/fixtures/dependencies/node_modules/other-module/file.js"));
   (R0, (lit "/r/tests/fixtures/dependencies/a/b"), (lit "some-module/index"), XEq (lit "/r/tests/fixtures/dependencies/a/b/node_modules/some-module/index.js"));
   (R0, (lit "/r/tests/fixtures/dependencies/a/b"), (lit "module/file"), XEq (lit "/r/tests/fixtures/dependencies/a/node_modules/module/file.js"));
   (R0, (lit "/r/tests/fixtures/dependencies/a/b"), (lit "other-module/file.js"), XEq (lit "/r/tests/fixtures/dependencies/node_modules/other-module/file.js"))].
Example dependencies_test : all_ok dependencies_test_rows = true.
Proof. vm_compute. reflexivity. Qed.

Definition full_specified_test_rows :=
  let R0 := (new_resolver (mkOpts [(lit ".js"); (lit ".json"); (lit ".node")] None [((lit "alias1"), (ATarget (lit "./abc"))); ((lit "alias2"), (ATarget (lit "./")))] false true (Some (lit "package.json")) [(lit "index")] [(lit "main")] true [(lit "node")] None) 50 0 true js jsc) in
  [(R0, (lit "/r/tests/fixtures/full/a"), (lit "package4/a.js"), XEq (lit "/r/tests/fixtures/full/a/node_modules/package4/b.js"));
   (R0, (lit "/r/tests/fixtures/full/a"), (lit "./abc.js"), XEq (lit "/r/tests/fixtures/full/a/abc.js"));
   (R0, (lit "/r/tests/fixtures/full/a"), (lit "package1/file.js"), XEq (lit "/r/tests/fixtures/full/a/node_modules/package1/file.js"));
   (R0, (lit "/r/tests/fixtures/full/a"), (lit "package1"), XEq (lit "/r/tests/fixtures/full/a/node_modules/package1/index.js"));
   (R0, (lit "/r/tests/fixtures/full/a"), (lit "package2"), XEq (lit "/r/tests/fixtures/full/a/node_modules/package2/a.js"));
   (R0, (lit "/r/tests/fixtures/full/a"), (lit "alias1"), XEq (lit "/r/tests/fixtures/full/a/abc.js"));
   (R0, (lit "/r/tests/fixtures/full/a"), (lit "alias2"), XEq (lit "/r/tests/fixtures/full/a/index.js"));
   (R0, (lit "/r/tests/fixtures/full/a"), (lit "package3"), XEq (lit "/r/tests/fixtures/full/a/node_modules/package3/dir/index.js"));
   (R0, (lit "/r/tests/fixtures/full/a"), (lit "package3/dir"), XEq (lit "/r/tests/fixtures/full/a/node_modules/package3/dir/index.js"));
   (R0, (lit "/r/tests/fixtures/full/a"), (lit "package4/a.js"), XEq (lit "/r/tests/fixtures/full/a/node_modules/package4/b.js"));
   (R0, (lit "/r/tests/fixtures/full/a"), (lit "."), XEq (lit "/r/tests/fixtures/full/a/index.js"));
   (R0, (lit "/r/tests/fixtures/full/a"), (lit "./"), XEq (lit "/r/tests/fixtures/full/a/index.js"));
   (R0, (lit "/r/tests/fixtures/full/a"), (lit "./dir"), XEq (lit "/r/tests/fixtures/full/a/dir/index.js"));
   (R0, (lit "/r/tests/fixtures/full/a"), (lit "./dir/"), XEq (lit "/r/tests/fixtures/full/a/dir/index.js"));
   (R0, (lit "/r/tests/fixtures/full/a"), (lit "./dir?123#456"), XEq (lit "/r/tests/fixtures/full/a/dir/index.js?123#456"));
   (R0, (lit "/r/tests/fixtures/full/a"), (lit "./dir/?123#456"), XEq (lit "/r/tests/fixtures/full/a/dir/index.js?123#456"))].
Example full_specified_test : all_ok full_specified_test_rows = true.
Proof. vm_compute. reflexivity. Qed.

Definition missing_test_rows :=
  let R0 := (new_resolver (mkOpts [(lit ".js"); (lit ".json"); (lit ".node")] None [] false true (Some (lit "package.json")) [(lit "index")] [(lit "main")] false [(lit "node")] None) 50 0 true js jsc) in
  [(R0, (lit "/r/tests/fixtures"), (lit "./missing-file"), XErr (lit "Resolve './missing-file' failed in '/r/tests/fixtures'"));
   (R0, (lit "/r/tests/fixtures"), (lit "./missing-file.js"), XErr (lit "Resolve './missing-file.js' failed in '/r/tests/fixtures'"));
   (R0, (lit "/r/tests/fixtures"), (lit "missing-module"), XErr (lit "Resolve 'missing-module' failed in '/r/tests/fixtures'"));
   (R0, (lit "/r/tests/fixtures"), (lit "missing-module/missing-file"), XErr (lit "Resolve 'missing-module/missing-file' failed in '/r/tests/fixtures'"));
   (R0, (lit "/r/tests/fixtures"), (lit "m1/missing-file"), XErr (lit "Resolve 'm1/missing-file' failed in '/r/tests/fixtures'"));
   (R0, (lit "/r/tests/fixtures"), (lit "m1/"), XErr (lit "Resolve 'm1/' failed in '/r/tests/fixtures'"));
   (R0, (lit "/r/tests/fixtures"), (lit "m1/a"), XEq (lit "/r/tests/fixtures/node_modules/m1/a.js"))].
Example missing_test : all_ok missing_test_rows = true.
Proof. vm_compute. reflexivity. Qed.

Definition incorrect_package_test_rows :=
  let R0 := (new_resolver (mkOpts [(lit ".js"); (lit ".json"); (lit ".node")] None [] false true (Some (lit "package.json")) [(lit "index")] [(lit "main")] false [(lit "node")] None) 50 0 true js jsc) in
  [(R0, (lit "/r/tests/fixtures/incorrect-package/pack1"), (lit "."), XErr (lit "Parse"));
   (R0, (lit "/r/tests/fixtures/incorrect-package/pack2"), (lit "."), XErr (lit "Parse"))].
Example incorrect_package_test : all_ok incorrect_package_test_rows = true.
Proof. vm_compute. reflexivity. Qed.

Definition scoped_packages_test_rows :=
  let R0 := (new_resolver (mkOpts [(lit ".js"); (lit ".json"); (lit ".node")] None [] false true (Some (lit "package.json")) [(lit "index")] [(lit "main")] true [(lit "node")] None) 50 0 true js jsc) in
  [(R0, (lit "/r/tests/fixtures/scoped"), (lit "@scope/pack1"), XEq (lit "/r/tests/fixtures/scoped/node_modules/@scope/pack1/main.js"));
   (R0, (lit "/r/tests/fixtures/scoped"), (lit "@scope/pack1/main"), XEq (lit "/r/tests/fixtures/scoped/node_modules/@scope/pack1/main.js"));
   (R0, (lit "/r/tests/fixtures/scoped"), (lit "@scope/pack2"), XEq (lit "/r/tests/fixtures/scoped/node_modules/@scope/pack2/main.js"));
   (R0, (lit "/r/tests/fixtures/scoped"), (lit "@scope/pack2/main"), XEq (lit "/r/tests/fixtures/scoped/node_modules/@scope/pack2/main.js"));
   (R0, (lit "/r/tests/fixtures/scoped"), (lit "@scope/pack2/lib"), XEq (lit "/r/tests/fixtures/scoped/node_modules/@scope/pack2/lib/index.js"))].
Example scoped_packages_test : all_ok scoped_packages_test_rows = true.
Proof. vm_compute. reflexivity. Qed.

Definition exports_fields_test_rows :=
  let R0 := (new_resolver (mkOpts [(lit ".js"); (lit ".json"); (lit ".node")] None [] false true (Some (lit "package.json")) [(lit "index")] [(lit "main")] false [(lit "import")] None) 50 0 true js jsc) in
  let R1 := (new_resolver (mkOpts [(lit ".js")] None [] false true (Some (lit "package.json")) [(lit "index")] [(lit "main")] false [(lit "require")] None) 51 1 true js jsc) in
  let R2 := (new_resolver (mkOpts [(lit ".js")] None [] false true (Some (lit "package.json")) [(lit "index")] [(lit "main")] false [(lit "webpack")] None) 52 2 true js jsc) in
  let R3 := (new_resolver (mkOpts [(lit ".js")] None [] false true (Some (lit "package.json")) [(lit "index")] [(lit "main")] true [(lit "webpack")] None) 53 3 true js jsc) in
  let R4 := (new_resolver (mkOpts [(lit ".js")] None [] false true (Some (lit "package.json")) [(lit "index")] [(lit "main")] true [(lit "node")] None) 54 4 true js jsc) in
  let R5 := (new_resolver (mkOpts [(lit ".js")] None [] false true (Some (lit "package.json")) [(lit "index")] [(lit "main")] false [(lit "webpack")] None) 55 5 true js jsc) in
  [(R0, (lit "/r/tests/fixtures/exports-field"), (lit "@scope/import-require"), XEq (lit "/r/tests/fixtures/exports-field/node_modules/@scope/import-require/dist/esm/index.js"));
   (R0, (lit "/r/tests/fixtures/exports-field"), (lit "@scope/import-require/a"), XEq (lit "/r/tests/fixtures/exports-field/node_modules/@scope/import-require/dist/esm/a/index.js"));
   (R1, (lit "/r/tests/fixtures/exports-field"), (lit "@scope/import-require"), XEq (lit "/r/tests/fixtures/exports-field/node_modules/@scope/import-require/dist/esm/index.js"));
   (R1, (lit "/r/tests/fixtures/exports-field"), (lit "@scope/import-require/a"), XEq (lit "/r/tests/fixtures/exports-field/node_modules/@scope/import-require/dist/cjs/a/index.js"));
   (R2, (lit "/r/tests/fixtures/exports-field"), (lit "@exports-field/coreaaaa"), XErr (lit "Resolve '@exports-field/coreaaaa' failed in '/r/tests/fixtures/exports-field'"));
   (R2, (lit "/r/tests/fixtures/exports-field"), (lit "exports-field/x.js"), XErr (lit "Package path exports-field/x.js is not exported"));
   (R2, (lit "/r/tests/fixtures/exports-field"), (lit "exports-field/dist/a.js"), XErr (lit "Package path exports-field/dist/a.js is not exported"));
   (R2, (lit "/r/tests/fixtures/exports-field"), (lit "exports-field/dist/../../../a.js"), XErr (lit "Package path exports-field/dist/../../../a.js is not exported"));
   (R2, (lit "/r/tests/fixtures/exports-field"), (lit "exports-field/dist/main.js"), XEq (lit "/r/tests/fixtures/exports-field/node_modules/exports-field/lib/lib2/main.js"));
   (R2, (lit "/r/tests/fixtures/exports-field"), (lit "@exports-field/core"), XEq (lit "/r/tests/fixtures/exports-field/a.js"));
   (R2, (lit "/r/tests/fixtures/exports-field"), (lit "./b"), XEq (lit "/r/tests/fixtures/exports-field/b.js"));
   (R2, (lit "/r/tests/fixtures/exports-field"), (lit "./a"), XEq (lit "/r/tests/fixtures/exports-field/a.js"));
   (R2, (lit "/r/tests/fixtures/exports-field"), (lit "@exports-field/core/a"), XErr (lit "Package path @exports-field/core/a is not exported"));
   (R2, (lit "/r/tests/fixtures/exports-field"), (lit "./node_modules/exports-field/lib/main.js"), XEq (lit "/r/tests/fixtures/exports-field/node_modules/exports-field/lib/main.js"));
   (R2, (lit "/r/tests/fixtures/exports-field"), (lit "./node_modules/exports-field/dist/main"), XErr (lit "Resolve './node_modules/exports-field/dist/main' failed in '/r/tests/fixtures/exports-field'"));
   (R2, (lit "/r/tests/fixtures/exports-field"), (lit "exports-field/anything/else"), XErr (lit "Package path exports-field/anything/else is not exported"));
   (R2, (lit "/r/tests/fixtures/exports-field"), (lit "exports-field/"), XErr (lit "Only requesting file allowed"));
   (R2, (lit "/r/tests/fixtures/exports-field"), (lit "exports-field/dist"), XErr (lit "Package path exports-field/dist is not exported"));
   (R2, (lit "/r/tests/fixtures/exports-field"), (lit "exports-field/lib"), XErr (lit "Package path exports-field/lib is not exported"));
   (R2, (lit "/r/tests/fixtures/exports-field"), (lit "invalid-exports-field"), XErr (lit "Export field key can't mixed relative path and conditional object"));
   (R2, (lit "/r/tests/fixtures/exports-field"), (lit "exports-field"), XEq (lit "/r/tests/fixtures/exports-field/node_modules/exports-field/x.js"));
   (R2, (lit "/r/tests/fixtures/exports-field2"), (lit "exports-field"), XEq (lit "/r/tests/fixtures/exports-field2/node_modules/exports-field/index.js"));
   (R2, (lit "/r/tests/fixtures/exports-field2"), (lit "exports-field/dist/main.js"), XEq (lit "/r/tests/fixtures/exports-field2/node_modules/exports-field/lib/lib2/main.js"));
   (R2, (lit "/r/tests/fixtures/exports-field2"), (lit "exports-field/dist/browser.js"), XEq (lit "/r/tests/fixtures/exports-field2/node_modules/exports-field/lib/browser.js"));
   (R2, (lit "/r/tests/fixtures/exports-field2"), (lit "exports-field/dist/browser.js?foo"), XEq (lit "/r/tests/fixtures/exports-field2/node_modules/exports-field/lib/browser.js?foo"));
   (R2, (lit "/r/tests/fixtures/exports-field2"), (lit "exports-field/dist/main"), XErr (lit "Package path exports-field/dist/main is not exported"));
   (R2, (lit "/r/tests/fixtures/exports-field2"), (lit "exports-field?foo"), XErr (lit "Package path exports-field is not exported"));
   (R2, (lit "/r/tests/fixtures/exports-field2"), (lit "exports-field#foo"), XErr (lit "Package path exports-field is not exported"));
   (R2, (lit "/r/tests/fixtures/exports-field2"), (lit "exports-field/dist/browser.js#foo"), XEq (lit "/r/tests/fixtures/exports-field2/node_modules/exports-field/lib/browser.js#foo"));
   (R3, (lit "/r/tests/fixtures/exports-field"), (lit "./node_modules/exports-field/lib/main.js"), XEq (lit "/r/tests/fixtures/exports-field/node_modules/exports-field/lib/browser.js"));
   (R3, (lit "/r/tests/fixtures/exports-field"), (lit "./node_modules/exports-field/dist/main.js"), XEq (lit "/r/tests/fixtures/exports-field/node_modules/exports-field/lib/browser.js"));
   (R4, (lit "/r/tests/fixtures/exports-field"), (lit "exports-field/dist/main.js"), XEq (lit "/r/tests/fixtures/exports-field/node_modules/exports-field/lib/browser.js"));
   (R5, (lit "/r/tests/fixtures/exports-field-error"), (lit "exports-field"), XErr (lit "Package path exports-field is not exported"))].
Example exports_fields_test : all_ok exports_fields_test_rows = true.
Proof. vm_compute. reflexivity. Qed.

Definition imports_fields_test_rows :=
  let R0 := (new_resolver (mkOpts [(lit ".js")] None [] false true (Some (lit "package.json")) [(lit "index")] [(lit "main")] false [(lit "webpack")] None) 50 0 true js jsc) in
  [(R0, (lit "/r/tests/fixtures/imports-field"), (lit "#c-redirect/index"), XEq (lit "/r/tests/fixtures/imports-field/node_modules/c/index.js"));
   (R0, (lit "/r/tests/fixtures/imports-field"), (lit "c"), XEq (lit "/r/tests/fixtures/imports-field/node_modules/c/index.js"));
   (R0, (lit "/r/tests/fixtures/imports-field"), (lit "#c"), XEq (lit "/r/tests/fixtures/imports-field/node_modules/c/index.js"));
   (R0, (lit "/r/tests/fixtures/imports-field"), (lit "#imports-field"), XEq (lit "/r/tests/fixtures/imports-field/b.js"));
   (R0, (lit "/r/tests/fixtures/imports-field"), (lit "#b"), XErr (lit "Package path #b is not exported"));
   (R0, (lit "/r/tests/fixtures/imports-field"), (lit "#a/dist/main.js"), XEq (lit "/r/tests/fixtures/imports-field/node_modules/a/lib/lib2/main.js"));
   (R0, (lit "/r/tests/fixtures/imports-field"), (lit "#ccc/index.js"), XEq (lit "/r/tests/fixtures/imports-field/node_modules/c/index.js"));
   (R0, (lit "/r/tests/fixtures/imports-field"), (lit "#a"), XErr (lit "Package path #a is not exported"));
   (R0, (lit "/r/tests/fixtures/imports-field"), (lit "#c"), XEq (lit "/r/tests/fixtures/imports-field/node_modules/c/index.js"));
   (R0, (lit "/r/tests/fixtures/imports-field/dir"), (lit "#imports-field"), XEq (lit "/r/tests/fixtures/imports-field/b.js"))].
Example imports_fields_test : all_ok imports_fields_test_rows = true.
Proof. vm_compute. reflexivity. Qed.

Definition without_description_file_test_rows :=
  let R0 := (new_resolver (mkOpts [(lit ".js")] None [] false true None [(lit "index")] [(lit "main")] false [(lit "node")] None) 50 0 true js jsc) in
  [(R0, (lit "/r/tests/fixtures"), (lit "./a"), XEq (lit "/r/tests/fixtures/a.js"));
   (R0, (lit "/r/tests/fixtures/exports-field"), (lit "exports-field/lib"), XEq (lit "/r/tests/fixtures/exports-field/node_modules/exports-field/lib/index.js"))].
Example without_description_file_test : all_ok without_description_file_test_rows = true.
Proof. vm_compute. reflexivity. Qed.

Definition prefer_relative_test_rows :=
  let R0 := (new_resolver (mkOpts [(lit ".js"); (lit ".json"); (lit ".node")] None [] true true (Some (lit "package.json")) [(lit "index")] [(lit "main")] false [(lit "node")] None) 50 0 true js jsc) in
  [(R0, (lit "/r/tests/fixtures"), (lit "main1.js"), XEq (lit "/r/tests/fixtures/main1.js"));
   (R0, (lit "/r/tests/fixtures"), (lit "m1/a.js"), XEq (lit "/r/tests/fixtures/node_modules/m1/a.js"))].
Example prefer_relative_test : all_ok prefer_relative_test_rows = true.
Proof. vm_compute. reflexivity. Qed.

Definition main_fields_test_rows :=
  let R0 := (new_resolver (mkOpts [(lit ".js"); (lit ".json"); (lit ".node")] None [] false true (Some (lit "package.json")) [(lit "index")] [(lit "main")] false [(lit "node")] None) 50 0 true js jsc) in
  let R1 := (new_resolver (mkOpts [(lit ".js"); (lit ".json"); (lit ".node")] None [] false true (Some (lit "package.json")) [(lit "index")] [(lit "module")] false [(lit "node")] None) 51 1 true js jsc) in
  let R2 := (new_resolver (mkOpts [(lit ".js"); (lit ".json"); (lit ".node")] None [] false true (Some (lit "package.json")) [(lit "index")] [(lit "main"); (lit "module")] false [(lit "node")] None) 52 2 true js jsc) in
  let R3 := (new_resolver (mkOpts [(lit ".js"); (lit ".json"); (lit ".node")] None [] false true (Some (lit "package.json")) [(lit "index")] [(lit "module"); (lit "main")] false [(lit "node")] None) 53 3 true js jsc) in
  [(R0, (lit "/r/tests/fixtures"), (lit "./main-field-self"), XEq (lit "/r/tests/fixtures/main-field-self/index.js"));
   (R0, (lit "/r/tests/fixtures"), (lit "./main-field-self2"), XEq (lit "/r/tests/fixtures/main-field-self2/index.js"));
   (R0, (lit "/r/tests/fixtures"), (lit "./main-field"), XEq (lit "/r/tests/fixtures/main-field/src/index.js"));
   (R0, (lit "/r/tests/fixtures"), (lit "./main-field-inexist"), XEq (lit "/r/tests/fixtures/main-field-inexist/index.js"));
   (R0, (lit "/r/tests/fixtures"), (lit "./main-filed-no-relative"), XEq (lit "/r/tests/fixtures/main-filed-no-relative/c.js"));
   (R0, (lit "/r/tests/fixtures/main-filed-no-relative"), (lit "."), XEq (lit "/r/tests/fixtures/main-filed-no-relative/c.js"));
   (R1, (lit "/r/tests/fixtures"), (lit "./main-field-inexist"), XEq (lit "/r/tests/fixtures/main-field-inexist/module.js"));
   (R1, (lit "/r/tests/fixtures"), (lit "./main-filed-no-relative"), XEq (lit "/r/tests/fixtures/main-filed-no-relative/index.js"));
   (R1, (lit "/r/tests/fixtures/main-filed-no-relative"), (lit "."), XEq (lit "/r/tests/fixtures/main-filed-no-relative/index.js"));
   (R2, (lit "/r/tests/fixtures"), (lit "./main-field-inexist"), XEq (lit "/r/tests/fixtures/main-field-inexist/module.js"));
   (R3, (lit "/r/tests/fixtures"), (lit "./main-field-inexist"), XEq (lit "/r/tests/fixtures/main-field-inexist/module.js"))].
Example main_fields_test : all_ok main_fields_test_rows = true.
Proof. vm_compute. reflexivity. Qed.

Definition tsconfig_paths_test_rows :=
  let R0 := (new_resolver (mkOpts [(lit ".ts")] None [] false true (Some (lit "package.json")) [(lit "index")] [(lit "main")] false [(lit "node")] (Some (lit "/r/tests/fixtures/tsconfig-paths/tsconfig.json"))) 50 0 true js jsc) in
  [(R0, (lit "/r/tests/fixtures/tsconfig-paths"), (lit "test2/foo"), XEq (lit "/r/tests/fixtures/tsconfig-paths/test2-success/foo.ts"));
   (R0, (lit "/r/tests/fixtures/tsconfig-paths"), (lit "test0"), XEq (lit "/r/tests/fixtures/tsconfig-paths/test0-success.ts"));
   (R0, (lit "/r/tests/fixtures/tsconfig-paths"), (lit "test1/foo"), XEq (lit "/r/tests/fixtures/tsconfig-paths/test1-success.ts"));
   (R0, (lit "/r/tests/fixtures/tsconfig-paths"), (lit "test2/foo"), XEq (lit "/r/tests/fixtures/tsconfig-paths/test2-success/foo.ts"));
   (R0, (lit "/r/tests/fixtures/tsconfig-paths"), (lit "te*t3/foo"), XErr (lit "Resolve 'te*t3/foo' failed in '/r/tests/fixtures/tsconfig-paths'"));
   (R0, (lit "/r/tests/fixtures/tsconfig-paths"), (lit "test3/foo"), XEq (lit "/r/tests/fixtures/tsconfig-paths/test3-success.ts"));
   (R0, (lit "/r/tests/fixtures/tsconfig-paths"), (lit "test4/foo"), XEq (lit "/r/tests/fixtures/tsconfig-paths/test4-first/foo.ts"));
   (R0, (lit "/r/tests/fixtures/tsconfig-paths"), (lit "test5/foo"), XEq (lit "/r/tests/fixtures/tsconfig-paths/test5-second/foo.ts"));
   (R0, (lit "/r/tests/fixtures/tsconfig-paths"), (lit "/virtual-in/test"), XEq (lit "/r/tests/fixtures/tsconfig-paths/actual/test.ts"));
   (R0, (lit "/r/tests/fixtures/tsconfig-paths"), (lit "/virtual-in-star/test"), XEq (lit "/r/tests/fixtures/tsconfig-paths/actual/test.ts"));
   (R0, (lit "/r/tests/fixtures/tsconfig-paths"), (lit "./test0-success"), XEq (lit "/r/tests/fixtures/tsconfig-paths/test0-success.ts"));
   (R0, (lit "/r/tests/fixtures/tsconfig-paths"), (lit "./test1-success"), XEq (lit "/r/tests/fixtures/tsconfig-paths/test1-success.ts"));
   (R0, (lit "/r/tests/fixtures/tsconfig-paths"), (lit "./test2-success/foo"), XEq (lit "/r/tests/fixtures/tsconfig-paths/test2-success/foo.ts"));
   (R0, (lit "/r/tests/fixtures/tsconfig-paths"), (lit "./test3-success"), XEq (lit "/r/tests/fixtures/tsconfig-paths/test3-success.ts"));
   (R0, (lit "/r/tests/fixtures/tsconfig-paths"), (lit "./test4-first/foo"), XEq (lit "/r/tests/fixtures/tsconfig-paths/test4-first/foo.ts"));
   (R0, (lit "/r/tests/fixtures/tsconfig-paths"), (lit "./test5-second/foo"), XEq (lit "/r/tests/fixtures/tsconfig-paths/test5-second/foo.ts"));
   (R0, (lit "/r/tests/fixtures/tsconfig-paths"), (lit "./actual/test"), XEq (lit "/r/tests/fixtures/tsconfig-paths/actual/test.ts"))].
Example tsconfig_paths_test : all_ok tsconfig_paths_test_rows = true.
Proof. vm_compute. reflexivity. Qed.

Definition tsconfig_paths_nested_rows :=
  let R0 := (new_resolver (mkOpts [(lit ".ts")] None [] false true (Some (lit "package.json")) [(lit "index")] [(lit "main")] false [(lit "node")] (Some (lit "/r/tests/fixtures/tsconfig-paths-nested/tsconfig.json"))) 50 0 true js jsc) in
  [(R0, (lit "/r/tests/fixtures/tsconfig-paths-nested"), (lit "test0"), XEq (lit "/r/tests/fixtures/tsconfig-paths-nested/nested/test0-success.ts"));
   (R0, (lit "/r/tests/fixtures/tsconfig-paths-nested"), (lit "test1/foo"), XEq (lit "/r/tests/fixtures/tsconfig-paths-nested/nested/test1-success.ts"));
   (R0, (lit "/r/tests/fixtures/tsconfig-paths-nested"), (lit "test2/foo"), XEq (lit "/r/tests/fixtures/tsconfig-paths-nested/nested/test2-success/foo.ts"));
   (R0, (lit "/r/tests/fixtures/tsconfig-paths-nested"), (lit "te*t3/foo"), XErr (lit "Resolve 'te*t3/foo' failed in '/r/tests/fixtures/tsconfig-paths-nested'"));
   (R0, (lit "/r/tests/fixtures/tsconfig-paths-nested"), (lit "test3/foo"), XEq (lit "/r/tests/fixtures/tsconfig-paths-nested/nested/test3-success.ts"));
   (R0, (lit "/r/tests/fixtures/tsconfig-paths-nested"), (lit "test4/foo"), XEq (lit "/r/tests/fixtures/tsconfig-paths-nested/nested/test4-first/foo.ts"));
   (R0, (lit "/r/tests/fixtures/tsconfig-paths-nested"), (lit "test5/foo"), XEq (lit "/r/tests/fixtures/tsconfig-paths-nested/nested/test5-second/foo.ts"));
   (R0, (lit "/r/tests/fixtures/tsconfig-paths-nested"), (lit "/virtual-in/test"), XEq (lit "/r/tests/fixtures/tsconfig-paths-nested/nested/actual/test.ts"));
   (R0, (lit "/r/tests/fixtures/tsconfig-paths-nested"), (lit "/virtual-in-star/test"), XEq (lit "/r/tests/fixtures/tsconfig-paths-nested/nested/actual/test.ts"))].
Example tsconfig_paths_nested : all_ok tsconfig_paths_nested_rows = true.
Proof. vm_compute. reflexivity. Qed.

Definition tsconfig_paths_without_base_url_test_rows :=
  let R0 := (new_resolver (mkOpts [(lit ".ts")] None [] false true (Some (lit "package.json")) [(lit "index")] [(lit "main")] false [(lit "node")] (Some (lit "/r/tests/fixtures/tsconfig-paths-without-baseURL/tsconfig.json"))) 50 0 true js jsc) in
  [(R0, (lit "/r/tests/fixtures/tsconfig-paths-without-baseURL"), (lit "should-not-be-imported"), XErr (lit "Resolve 'should-not-be-imported' failed in '/r/tests/fixtures/tsconfig-paths-without-baseURL'"))].
Example tsconfig_paths_without_base_url_test : all_ok tsconfig_paths_without_base_url_test_rows = true.
Proof. vm_compute. reflexivity. Qed.

Definition tsconfig_paths_overridden_base_url_rows :=
  let R0 := (new_resolver (mkOpts [(lit ".ts")] None [] false true (Some (lit "package.json")) [(lit "index")] [(lit "main")] false [(lit "node")] (Some (lit "/r/tests/fixtures/tsconfig-paths-override-baseURL/tsconfig.json"))) 50 0 true js jsc) in
  [(R0, (lit "/r/tests/fixtures/tsconfig-paths-override-baseURL"), (lit "#/test"), XEq (lit "/r/tests/fixtures/tsconfig-paths-override-baseURL/src/test.ts"))].
Example tsconfig_paths_overridden_base_url : all_ok tsconfig_paths_overridden_base_url_rows = true.
Proof. vm_compute. reflexivity. Qed.

Definition tsconfig_paths_missing_base_url_rows :=
  let R0 := (new_resolver (mkOpts [(lit ".ts")] None [] false true (Some (lit "package.json")) [(lit "index")] [(lit "main")] false [(lit "node")] (Some (lit "/r/tests/fixtures/tsconfig-paths-missing-baseURL/tsconfig.json"))) 50 0 true js jsc) in
  [(R0, (lit "/r/tests/fixtures/tsconfig-paths-missing-baseURL"), (lit "#/test"), XErr (lit "Resolve '#/test' failed in '/r/tests/fixtures/tsconfig-paths-missing-baseURL'"))].
Example tsconfig_paths_missing_base_url : all_ok tsconfig_paths_missing_base_url_rows = true.
Proof. vm_compute. reflexivity. Qed.

Definition tsconfig_paths_extends_from_node_modules_rows :=
  let R0 := (new_resolver (mkOpts [(lit ".ts")] None [] false true (Some (lit "package.json")) [(lit "index")] [(lit "main")] false [(lit "node")] (Some (lit "/r/tests/fixtures/tsconfig-paths-extends-from-module/tsconfig.json"))) 50 0 true js jsc) in
  let R1 := (new_resolver (mkOpts [(lit ".ts")] None [] false true (Some (lit "package.json")) [(lit "index")] [(lit "main")] false [(lit "node")] (Some (lit "/r/tests/fixtures/tsconfig-paths-extends-from-module/tsconfig.scope.json"))) 51 1 true js jsc) in
  [(R0, (lit "/r/tests/fixtures/tsconfig-paths-extends-from-module"), (lit "foo"), XEq (lit "/r/tests/fixtures/tsconfig-paths-extends-from-module/src/test.ts"));
   (R1, (lit "/r/tests/fixtures/tsconfig-paths-extends-from-module"), (lit "foo"), XEq (lit "/r/tests/fixtures/tsconfig-paths-extends-from-module/src/test.ts"))].
Example tsconfig_paths_extends_from_node_modules : all_ok tsconfig_paths_extends_from_node_modules_rows = true.
Proof. vm_compute. reflexivity. Qed.

Definition shared_cache_test_rows :=
  let R0 := (new_resolver (mkOpts [(lit ".js"); (lit ".json"); (lit ".node")] None [] false true (Some (lit "package.json")) [(lit "index")] [(lit "main")] true [(lit "node")] None) 0 0 true js jsc) in
  let R1 := (new_resolver (mkOpts [(lit ".js"); (lit ".json"); (lit ".node")] None [] false true (Some (lit "package.json")) [(lit "index")] [(lit "main")] false [(lit "node")] None) 0 1 true js jsc) in
  let R2 := (new_resolver (mkOpts [(lit ".js"); (lit ".json"); (lit ".node")] None [] false true (Some (lit "package.json")) [(lit "index")] [(lit "module")] false [(lit "node")] None) 0 2 true js jsc) in
  [(R0, (lit "/r/tests/fixtures/browser-module"), (lit "./lib/ignore.js"), XIgnored);
   (R1, (lit "/r/tests/fixtures/browser-module"), (lit "./lib/ignore.js"), XEq (lit "/r/tests/fixtures/browser-module/lib/ignore.js"));
   (R2, (lit "/r/tests/fixtures/main-field-inexist"), (lit "."), XEq (lit "/r/tests/fixtures/main-field-inexist/module.js"))].
Example shared_cache_test : all_ok shared_cache_test_rows = true.
Proof. vm_compute. reflexivity. Qed.

(** [cache_fs] (tests/cases.rs:2119-2150): package.json rewritten three seconds later, twice. *)
Definition cache_fs_node (content : str) (t : N) : node :=
  NDir [(lit "r", NDir [(lit "tests", NDir [(lit "fixtures", NDir [(lit "cache-fs",
    NDir [(lit "index.js", NFile [] 0%N); (lit "module.js", NFile [] 0%N);
          (lit "package.json", NFile content t)])])])])].
Definition cache_fs_fs content t := posix_fs 300 (cache_fs_node content t) [lit "r"].
Example cache_fs :
  let R := new_resolver default_options 0 0 true js jsc in
  let d := lit "/r/tests/fixtures/cache-fs" in
  let c := ECall (CResolve R FUEL d (lit ".")) in
  let '(os, _, _) := run_history (cache_fs_fs text3 5000000000%N) (empty_state (fun _ => []))
     [c; EFs (cache_fs_fs text41 8000000000%N); c; EFs (cache_fs_fs text3 11000000000%N); c] in
  map (fun o => match o with
                | Done (AResolve (Ok (RInfo i))) => i_path i
                | _ => [] end) os
  = [join d (lit "index.js"); join d (lit "module.js"); join d (lit "index.js")].
Proof. vm_compute. reflexivity. Qed.

(** [load_side_effects_test] (tests/cases.rs:2525-2620). *)
Definition side_of (p : path) :=
  out fs0 (empty_state (fun _ => []))
    (load_side_effects (new_resolver default_options 0 0 true js jsc) FUEL p).
Definition fx (p : string) : path := lit "/r/tests/fixtures/" ++ lit p.
Example load_side_effects_test :
  (match side_of (fx "exports-field/node_modules/@scope/import-require/dist/cjs/index.js") with
   | Done (Ok (Some (p, Some (SEArray _)))) =>
       path_eqb p (fx "exports-field/node_modules/@scope/import-require/package.json")
   | _ => false end = true) /\
  (match side_of (fx "exports-field/node_modules/exports-field/x.js") with
   | Done (Ok (Some (p, Some (SEBool false)))) =>
       path_eqb p (fx "exports-field/node_modules/exports-field/package.json")
   | _ => false end = true) /\
  side_of (fx "incorrect-package/sideeffects-map")
    = Done (Err (lit "sideEffects in " ++ fx "incorrect-package/sideeffects-map/package.json"
                 ++ lit " had unexpected value {}")) /\
  side_of (fx "incorrect-package/sideeffects-other-in-array")
    = Done (Err (lit "sideEffects in " ++ fx "incorrect-package/sideeffects-other-in-array/package.json"
                 ++ lit " had unexpected value 1")) /\
  side_of (lit "/r/tests/fixtures") = Done (Ok None).
Proof. vm_compute. repeat split. Qed.
