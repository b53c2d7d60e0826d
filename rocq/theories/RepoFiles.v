(** Files of the repository, as they are there: the migrations directories of
    examples/getting_started, examples/newtype, examples/reserved-words and
    examples/custom_pg, and the sources [butane embed] wrote for them.  Every text is the
    content of the file named before it, byte for byte; lock files are left out. *)
From Coq Require Import String List.
Import ListNotations.
Open Scope string_scope.

Record repo_project := {
  rp_files : list (string * string * string);
  rp_state : option string;
  rp_cli : string;
  rp_source : string }.

(** examples/getting_started *)
Definition repo_getting_started : repo_project := {|
  rp_files := [
    (* examples/getting_started/.butane/migrations/20201229_144636751_init/Blog.table *)
    ("20201229_144636751_init", "Blog.table", "{
  ""name"": ""Blog"",
  ""columns"": [
    {
      ""name"": ""id"",
      ""sqltype"": {
        ""Known"": ""BigInt""
      },
      ""nullable"": false,
      ""pk"": true,
      ""auto"": true,
      ""unique"": false,
      ""default"": null
    },
    {
      ""name"": ""name"",
      ""sqltype"": {
        ""Known"": ""Text""
      },
      ""nullable"": false,
      ""pk"": false,
      ""auto"": false,
      ""unique"": false,
      ""default"": null
    }
  ]
}
");
    (* examples/getting_started/.butane/migrations/20201229_144636751_init/Post.table *)
    ("20201229_144636751_init", "Post.table", "{
  ""name"": ""Post"",
  ""columns"": [
    {
      ""name"": ""id"",
      ""sqltype"": {
        ""Known"": ""Int""
      },
      ""nullable"": false,
      ""pk"": true,
      ""auto"": true,
      ""unique"": false,
      ""default"": null
    },
    {
      ""name"": ""title"",
      ""sqltype"": {
        ""Known"": ""Text""
      },
      ""nullable"": false,
      ""pk"": false,
      ""auto"": false,
      ""unique"": false,
      ""default"": null
    },
    {
      ""name"": ""body"",
      ""sqltype"": {
        ""Known"": ""Text""
      },
      ""nullable"": false,
      ""pk"": false,
      ""auto"": false,
      ""unique"": false,
      ""default"": null
    },
    {
      ""name"": ""published"",
      ""sqltype"": {
        ""Known"": ""Bool""
      },
      ""nullable"": false,
      ""pk"": false,
      ""auto"": false,
      ""unique"": false,
      ""default"": null
    },
    {
      ""name"": ""blog"",
      ""sqltype"": {
        ""Known"": ""BigInt""
      },
      ""nullable"": false,
      ""pk"": false,
      ""auto"": false,
      ""unique"": false,
      ""default"": null
    },
    {
      ""name"": ""byline"",
      ""sqltype"": {
        ""Known"": ""Text""
      },
      ""nullable"": true,
      ""pk"": false,
      ""auto"": false,
      ""unique"": false,
      ""default"": null
    }
  ]
}
");
    (* examples/getting_started/.butane/migrations/20201229_144636751_init/Post_tags_Many.table *)
    ("20201229_144636751_init", "Post_tags_Many.table", "{
  ""name"": ""Post_tags_Many"",
  ""columns"": [
    {
      ""name"": ""owner"",
      ""sqltype"": {
        ""Known"": ""Int""
      },
      ""nullable"": false,
      ""pk"": false,
      ""auto"": false,
      ""unique"": false,
      ""default"": null
    },
    {
      ""name"": ""has"",
      ""sqltype"": {
        ""Known"": ""Text""
      },
      ""nullable"": false,
      ""pk"": false,
      ""auto"": false,
      ""unique"": false,
      ""default"": null
    }
  ]
}
");
    (* examples/getting_started/.butane/migrations/20201229_144636751_init/Tag.table *)
    ("20201229_144636751_init", "Tag.table", "{
  ""name"": ""Tag"",
  ""columns"": [
    {
      ""name"": ""tag"",
      ""sqltype"": {
        ""Known"": ""Text""
      },
      ""nullable"": false,
      ""pk"": true,
      ""auto"": false,
      ""unique"": false,
      ""default"": null
    }
  ]
}
");
    (* examples/getting_started/.butane/migrations/20201229_144636751_init/info.json *)
    ("20201229_144636751_init", "info.json", "{
  ""backends"": [
    ""sqlite"",
    ""pg"",
    ""turso""
  ]
}
");
    (* examples/getting_started/.butane/migrations/20201229_144636751_init/pg_down.sql *)
    ("20201229_144636751_init", "pg_down.sql", "DROP TABLE Blog;
DROP TABLE Post;
DROP TABLE Post_tags_Many;
DROP TABLE ""Tag"";
");
    (* examples/getting_started/.butane/migrations/20201229_144636751_init/pg_up.sql *)
    ("20201229_144636751_init", "pg_up.sql", "CREATE TABLE Blog (
""id"" BIGSERIAL NOT NULL PRIMARY KEY,
""name"" TEXT NOT NULL
);
CREATE TABLE Post (
""id"" SERIAL NOT NULL PRIMARY KEY,
title TEXT NOT NULL,
body TEXT NOT NULL,
published BOOLEAN NOT NULL,
blog BIGINT NOT NULL,
byline TEXT
);
CREATE TABLE Post_tags_Many (
""owner"" INTEGER NOT NULL,
has TEXT NOT NULL
);
CREATE TABLE ""Tag"" (
""tag"" TEXT NOT NULL PRIMARY KEY
);
CREATE TABLE IF NOT EXISTS butane_migrations (
""name"" TEXT NOT NULL PRIMARY KEY
);
");
    (* examples/getting_started/.butane/migrations/20201229_144636751_init/sqlite_down.sql *)
    ("20201229_144636751_init", "sqlite_down.sql", "DROP TABLE Blog;
DROP TABLE Post;
DROP TABLE Post_tags_Many;
DROP TABLE ""Tag"";
");
    (* examples/getting_started/.butane/migrations/20201229_144636751_init/sqlite_up.sql *)
    ("20201229_144636751_init", "sqlite_up.sql", "CREATE TABLE Blog (
""id"" INTEGER NOT NULL PRIMARY KEY,
""name"" TEXT NOT NULL
) STRICT;
CREATE TABLE Post (
""id"" INTEGER NOT NULL PRIMARY KEY,
title TEXT NOT NULL,
body TEXT NOT NULL,
published INTEGER NOT NULL,
blog INTEGER NOT NULL,
byline TEXT
) STRICT;
CREATE TABLE Post_tags_Many (
""owner"" INTEGER NOT NULL,
has TEXT NOT NULL
) STRICT;
CREATE TABLE ""Tag"" (
""tag"" TEXT NOT NULL PRIMARY KEY
) STRICT;
CREATE TABLE IF NOT EXISTS butane_migrations (
""name"" TEXT NOT NULL PRIMARY KEY
) STRICT;
");
    (* examples/getting_started/.butane/migrations/20201229_144636751_init/turso_down.sql *)
    ("20201229_144636751_init", "turso_down.sql", "DROP TABLE Blog;
DROP TABLE Post;
DROP TABLE Post_tags_Many;
DROP TABLE ""Tag"";
");
    (* examples/getting_started/.butane/migrations/20201229_144636751_init/turso_up.sql *)
    ("20201229_144636751_init", "turso_up.sql", "CREATE TABLE Blog (""id"" INTEGER NOT NULL PRIMARY KEY, ""name"" TEXT NOT NULL);
CREATE TABLE Post (
    ""id"" INTEGER NOT NULL PRIMARY KEY,
    title TEXT NOT NULL,
    body TEXT NOT NULL,
    published INTEGER NOT NULL,
    blog INTEGER NOT NULL,
    byline TEXT
);
CREATE TABLE Post_tags_Many (""owner"" INTEGER NOT NULL, has TEXT NOT NULL);
CREATE TABLE ""Tag"" (""tag"" TEXT NOT NULL PRIMARY KEY);
CREATE TABLE IF NOT EXISTS butane_migrations (""name"" TEXT NOT NULL PRIMARY KEY);
");
    (* examples/getting_started/.butane/migrations/20201229_171630604_likes/Post.table *)
    ("20201229_171630604_likes", "Post.table", "{
  ""name"": ""Post"",
  ""columns"": [
    {
      ""name"": ""id"",
      ""sqltype"": {
        ""Known"": ""Int""
      },
      ""nullable"": false,
      ""pk"": true,
      ""auto"": true,
      ""unique"": false,
      ""default"": null
    },
    {
      ""name"": ""title"",
      ""sqltype"": {
        ""Known"": ""Text""
      },
      ""nullable"": false,
      ""pk"": false,
      ""auto"": false,
      ""unique"": false,
      ""default"": null
    },
    {
      ""name"": ""body"",
      ""sqltype"": {
        ""Known"": ""Text""
      },
      ""nullable"": false,
      ""pk"": false,
      ""auto"": false,
      ""unique"": false,
      ""default"": null
    },
    {
      ""name"": ""published"",
      ""sqltype"": {
        ""Known"": ""Bool""
      },
      ""nullable"": false,
      ""pk"": false,
      ""auto"": false,
      ""unique"": false,
      ""default"": null
    },
    {
      ""name"": ""blog"",
      ""sqltype"": {
        ""Known"": ""BigInt""
      },
      ""nullable"": false,
      ""pk"": false,
      ""auto"": false,
      ""unique"": false,
      ""default"": null
    },
    {
      ""name"": ""byline"",
      ""sqltype"": {
        ""Known"": ""Text""
      },
      ""nullable"": true,
      ""pk"": false,
      ""auto"": false,
      ""unique"": false,
      ""default"": null
    },
    {
      ""name"": ""likes"",
      ""sqltype"": {
        ""Known"": ""Int""
      },
      ""nullable"": false,
      ""pk"": false,
      ""auto"": false,
      ""unique"": false,
      ""default"": null
    }
  ]
}
");
    (* examples/getting_started/.butane/migrations/20201229_171630604_likes/info.json *)
    ("20201229_171630604_likes", "info.json", "{
  ""from_name"": ""20201229_144636751_init"",
  ""table_bases"": {
    ""Blog"": ""20201229_144636751_init"",
    ""Post_tags_Many"": ""20201229_144636751_init"",
    ""Tag"": ""20201229_144636751_init""
  },
  ""backends"": [
    ""sqlite"",
    ""pg"",
    ""turso""
  ]
}
");
    (* examples/getting_started/.butane/migrations/20201229_171630604_likes/pg_down.sql *)
    ("20201229_171630604_likes", "pg_down.sql", "ALTER TABLE Post DROP COLUMN likes;
");
    (* examples/getting_started/.butane/migrations/20201229_171630604_likes/pg_up.sql *)
    ("20201229_171630604_likes", "pg_up.sql", "ALTER TABLE Post ADD COLUMN likes INTEGER NOT NULL DEFAULT 0;
");
    (* examples/getting_started/.butane/migrations/20201229_171630604_likes/sqlite_down.sql *)
    ("20201229_171630604_likes", "sqlite_down.sql", "ALTER TABLE Post DROP COLUMN likes;
");
    (* examples/getting_started/.butane/migrations/20201229_171630604_likes/sqlite_up.sql *)
    ("20201229_171630604_likes", "sqlite_up.sql", "ALTER TABLE Post ADD COLUMN likes INTEGER NOT NULL DEFAULT 0;
");
    (* examples/getting_started/.butane/migrations/20201229_171630604_likes/turso_down.sql *)
    ("20201229_171630604_likes", "turso_down.sql", "ALTER TABLE Post DROP COLUMN likes;
");
    (* examples/getting_started/.butane/migrations/20201229_171630604_likes/turso_up.sql *)
    ("20201229_171630604_likes", "turso_up.sql", "ALTER TABLE Post ADD COLUMN likes INTEGER NOT NULL DEFAULT 0;
");
    (* examples/getting_started/.butane/migrations/20240115_023841384_dbconstraints/Post.table *)
    ("20240115_023841384_dbconstraints", "Post.table", "{
  ""name"": ""Post"",
  ""columns"": [
    {
      ""name"": ""id"",
      ""sqltype"": {
        ""KnownId"": {
          ""Ty"": ""Int""
        }
      },
      ""nullable"": false,
      ""pk"": true,
      ""auto"": true,
      ""unique"": false,
      ""default"": null
    },
    {
      ""name"": ""title"",
      ""sqltype"": {
        ""KnownId"": {
          ""Ty"": ""Text""
        }
      },
      ""nullable"": false,
      ""pk"": false,
      ""auto"": false,
      ""unique"": false,
      ""default"": null
    },
    {
      ""name"": ""body"",
      ""sqltype"": {
        ""KnownId"": {
          ""Ty"": ""Text""
        }
      },
      ""nullable"": false,
      ""pk"": false,
      ""auto"": false,
      ""unique"": false,
      ""default"": null
    },
    {
      ""name"": ""published"",
      ""sqltype"": {
        ""KnownId"": {
          ""Ty"": ""Bool""
        }
      },
      ""nullable"": false,
      ""pk"": false,
      ""auto"": false,
      ""unique"": false,
      ""default"": null
    },
    {
      ""name"": ""blog"",
      ""sqltype"": {
        ""KnownId"": {
          ""Ty"": ""BigInt""
        }
      },
      ""nullable"": false,
      ""pk"": false,
      ""auto"": false,
      ""unique"": false,
      ""default"": null,
      ""reference"": {
        ""Literal"": {
          ""table_name"": ""Blog"",
          ""column_name"": ""id""
        }
      }
    },
    {
      ""name"": ""byline"",
      ""sqltype"": {
        ""KnownId"": {
          ""Ty"": ""Text""
        }
      },
      ""nullable"": true,
      ""pk"": false,
      ""auto"": false,
      ""unique"": false,
      ""default"": null
    },
    {
      ""name"": ""likes"",
      ""sqltype"": {
        ""KnownId"": {
          ""Ty"": ""Int""
        }
      },
      ""nullable"": false,
      ""pk"": false,
      ""auto"": false,
      ""unique"": false,
      ""default"": null
    }
  ]
}
");
    (* examples/getting_started/.butane/migrations/20240115_023841384_dbconstraints/Post_tags_Many.table *)
    ("20240115_023841384_dbconstraints", "Post_tags_Many.table", "{
  ""name"": ""Post_tags_Many"",
  ""columns"": [
    {
      ""name"": ""owner"",
      ""sqltype"": {
        ""KnownId"": {
          ""Ty"": ""Int""
        }
      },
      ""nullable"": false,
      ""pk"": false,
      ""auto"": false,
      ""unique"": false,
      ""default"": null,
      ""reference"": {
        ""Literal"": {
          ""table_name"": ""Post"",
          ""column_name"": ""id""
        }
      }
    },
    {
      ""name"": ""has"",
      ""sqltype"": {
        ""KnownId"": {
          ""Ty"": ""Text""
        }
      },
      ""nullable"": false,
      ""pk"": false,
      ""auto"": false,
      ""unique"": false,
      ""default"": null,
      ""reference"": {
        ""Literal"": {
          ""table_name"": ""Tag"",
          ""column_name"": ""tag""
        }
      }
    }
  ]
}
");
    (* examples/getting_started/.butane/migrations/20240115_023841384_dbconstraints/info.json *)
    ("20240115_023841384_dbconstraints", "info.json", "{
  ""from_name"": ""20201229_171630604_likes"",
  ""table_bases"": {
    ""Blog"": ""20201229_144636751_init"",
    ""Tag"": ""20201229_144636751_init""
  },
  ""backends"": [
    ""sqlite"",
    ""pg"",
    ""turso""
  ]
}
");
    (* examples/getting_started/.butane/migrations/20240115_023841384_dbconstraints/pg_down.sql *)
    ("20240115_023841384_dbconstraints", "pg_down.sql", "ALTER TABLE Post DROP CONSTRAINT Post_blog_fkey;
ALTER TABLE Post_tags_Many DROP CONSTRAINT Post_tags_Many_has_fkey;
ALTER TABLE Post_tags_Many DROP CONSTRAINT Post_tags_Many_owner_fkey;
");
    (* examples/getting_started/.butane/migrations/20240115_023841384_dbconstraints/pg_up.sql *)
    ("20240115_023841384_dbconstraints", "pg_up.sql", "ALTER TABLE Post ADD FOREIGN KEY (blog) REFERENCES Blog(""id"");
ALTER TABLE Post_tags_Many ADD FOREIGN KEY (has) REFERENCES ""Tag""(""tag"");
ALTER TABLE Post_tags_Many ADD FOREIGN KEY (""owner"") REFERENCES Post(""id"");
");
    (* examples/getting_started/.butane/migrations/20240115_023841384_dbconstraints/sqlite_down.sql *)
    ("20240115_023841384_dbconstraints", "sqlite_down.sql", "CREATE TABLE Post__butane_tmp (
""id"" INTEGER NOT NULL PRIMARY KEY,
title TEXT NOT NULL,
body TEXT NOT NULL,
published INTEGER NOT NULL,
blog INTEGER NOT NULL,
byline TEXT,
likes INTEGER NOT NULL
) STRICT;
INSERT INTO Post__butane_tmp SELECT ""id"", title, body, published, blog, byline, likes FROM Post;
DROP TABLE Post;
ALTER TABLE Post__butane_tmp RENAME TO Post;
CREATE TABLE Post_tags_Many__butane_tmp (
""owner"" INTEGER NOT NULL,
has TEXT NOT NULL,
FOREIGN KEY (""owner"") REFERENCES Post(""id"")
) STRICT;
INSERT INTO Post_tags_Many__butane_tmp SELECT ""owner"", has FROM Post_tags_Many;
DROP TABLE Post_tags_Many;
ALTER TABLE Post_tags_Many__butane_tmp RENAME TO Post_tags_Many;
CREATE TABLE Post_tags_Many__butane_tmp (
""owner"" INTEGER NOT NULL,
has TEXT NOT NULL
) STRICT;
INSERT INTO Post_tags_Many__butane_tmp SELECT ""owner"", has FROM Post_tags_Many;
DROP TABLE Post_tags_Many;
ALTER TABLE Post_tags_Many__butane_tmp RENAME TO Post_tags_Many;
");
    (* examples/getting_started/.butane/migrations/20240115_023841384_dbconstraints/sqlite_up.sql *)
    ("20240115_023841384_dbconstraints", "sqlite_up.sql", "CREATE TABLE Post__butane_tmp (
""id"" INTEGER NOT NULL PRIMARY KEY,
title TEXT NOT NULL,
body TEXT NOT NULL,
published INTEGER NOT NULL,
blog INTEGER NOT NULL,
byline TEXT,
likes INTEGER NOT NULL,
FOREIGN KEY (blog) REFERENCES Blog(""id"")
) STRICT;
INSERT INTO Post__butane_tmp SELECT ""id"", title, body, published, blog, byline, likes FROM Post;
DROP TABLE Post;
ALTER TABLE Post__butane_tmp RENAME TO Post;
CREATE TABLE Post_tags_Many__butane_tmp (
""owner"" INTEGER NOT NULL,
has TEXT NOT NULL,
FOREIGN KEY (has) REFERENCES ""Tag""(""tag"")
) STRICT;
INSERT INTO Post_tags_Many__butane_tmp SELECT ""owner"", has FROM Post_tags_Many;
DROP TABLE Post_tags_Many;
ALTER TABLE Post_tags_Many__butane_tmp RENAME TO Post_tags_Many;
CREATE TABLE Post_tags_Many__butane_tmp (
""owner"" INTEGER NOT NULL,
has TEXT NOT NULL,
FOREIGN KEY (""owner"") REFERENCES Post(""id"")
FOREIGN KEY (has) REFERENCES ""Tag""(""tag"")
) STRICT;
INSERT INTO Post_tags_Many__butane_tmp SELECT ""owner"", has FROM Post_tags_Many;
DROP TABLE Post_tags_Many;
ALTER TABLE Post_tags_Many__butane_tmp RENAME TO Post_tags_Many;
");
    (* examples/getting_started/.butane/migrations/20240115_023841384_dbconstraints/turso_down.sql *)
    ("20240115_023841384_dbconstraints", "turso_down.sql", "CREATE TABLE Post__butane_tmp (
    ""id"" INTEGER NOT NULL PRIMARY KEY,
    title TEXT NOT NULL,
    body TEXT NOT NULL,
    published INTEGER NOT NULL,
    blog INTEGER NOT NULL,
    byline TEXT,
    likes INTEGER NOT NULL
);
INSERT INTO Post__butane_tmp SELECT ""id"", title, body, published, blog, byline, likes FROM Post;
DROP TABLE Post;
ALTER TABLE Post__butane_tmp RENAME TO Post;
CREATE TABLE Post_tags_Many__butane_tmp (
    ""owner"" INTEGER NOT NULL,
    has TEXT NOT NULL,
    FOREIGN KEY (""owner"") REFERENCES Post(""id"")
);
INSERT INTO Post_tags_Many__butane_tmp SELECT ""owner"", has FROM Post_tags_Many;
DROP TABLE Post_tags_Many;
ALTER TABLE Post_tags_Many__butane_tmp RENAME TO Post_tags_Many;
CREATE TABLE Post_tags_Many__butane_tmp (""owner"" INTEGER NOT NULL, has TEXT NOT NULL);
INSERT INTO Post_tags_Many__butane_tmp SELECT ""owner"", has FROM Post_tags_Many;
DROP TABLE Post_tags_Many;
ALTER TABLE Post_tags_Many__butane_tmp RENAME TO Post_tags_Many;
");
    (* examples/getting_started/.butane/migrations/20240115_023841384_dbconstraints/turso_up.sql *)
    ("20240115_023841384_dbconstraints", "turso_up.sql", "CREATE TABLE Post__butane_tmp (
    ""id"" INTEGER NOT NULL PRIMARY KEY,
    title TEXT NOT NULL,
    body TEXT NOT NULL,
    published INTEGER NOT NULL,
    blog INTEGER NOT NULL,
    byline TEXT,
    likes INTEGER NOT NULL,
    FOREIGN KEY (blog) REFERENCES Blog(""id"")
);
INSERT INTO Post__butane_tmp SELECT ""id"", title, body, published, blog, byline, likes FROM Post;
DROP TABLE Post;
ALTER TABLE Post__butane_tmp RENAME TO Post;
CREATE TABLE Post_tags_Many__butane_tmp (
    ""owner"" INTEGER NOT NULL,
    has TEXT NOT NULL,
    FOREIGN KEY (has) REFERENCES ""Tag""(""tag"")
);
INSERT INTO Post_tags_Many__butane_tmp SELECT ""owner"", has FROM Post_tags_Many;
DROP TABLE Post_tags_Many;
ALTER TABLE Post_tags_Many__butane_tmp RENAME TO Post_tags_Many;
CREATE TABLE Post_tags_Many__butane_tmp (
    ""owner"" INTEGER NOT NULL,
    has TEXT NOT NULL,
    FOREIGN KEY (""owner"") REFERENCES Post(""id""),
    FOREIGN KEY (has) REFERENCES ""Tag""(""tag"")
);
INSERT INTO Post_tags_Many__butane_tmp SELECT ""owner"", has FROM Post_tags_Many;
DROP TABLE Post_tags_Many;
ALTER TABLE Post_tags_Many__butane_tmp RENAME TO Post_tags_Many;
");
    (* examples/getting_started/.butane/migrations/current/.gitignore *)
    ("current", ".gitignore", "lock
");
    (* examples/getting_started/.butane/migrations/current/Blog.table *)
    ("current", "Blog.table", "{
  ""name"": ""Blog"",
  ""columns"": [
    {
      ""name"": ""id"",
      ""sqltype"": {
        ""KnownId"": {
          ""Ty"": ""BigInt""
        }
      },
      ""nullable"": false,
      ""pk"": true,
      ""auto"": true,
      ""unique"": false,
      ""default"": null
    },
    {
      ""name"": ""name"",
      ""sqltype"": {
        ""KnownId"": {
          ""Ty"": ""Text""
        }
      },
      ""nullable"": false,
      ""pk"": false,
      ""auto"": false,
      ""unique"": false,
      ""default"": null
    }
  ]
}
");
    (* examples/getting_started/.butane/migrations/current/Post.table *)
    ("current", "Post.table", "{
  ""name"": ""Post"",
  ""columns"": [
    {
      ""name"": ""id"",
      ""sqltype"": {
        ""KnownId"": {
          ""Ty"": ""Int""
        }
      },
      ""nullable"": false,
      ""pk"": true,
      ""auto"": true,
      ""unique"": false,
      ""default"": null
    },
    {
      ""name"": ""title"",
      ""sqltype"": {
        ""KnownId"": {
          ""Ty"": ""Text""
        }
      },
      ""nullable"": false,
      ""pk"": false,
      ""auto"": false,
      ""unique"": false,
      ""default"": null
    },
    {
      ""name"": ""body"",
      ""sqltype"": {
        ""KnownId"": {
          ""Ty"": ""Text""
        }
      },
      ""nullable"": false,
      ""pk"": false,
      ""auto"": false,
      ""unique"": false,
      ""default"": null
    },
    {
      ""name"": ""published"",
      ""sqltype"": {
        ""KnownId"": {
          ""Ty"": ""Bool""
        }
      },
      ""nullable"": false,
      ""pk"": false,
      ""auto"": false,
      ""unique"": false,
      ""default"": null
    },
    {
      ""name"": ""blog"",
      ""sqltype"": {
        ""Deferred"": ""PK:Blog""
      },
      ""nullable"": false,
      ""pk"": false,
      ""auto"": false,
      ""unique"": false,
      ""default"": null,
      ""reference"": {
        ""Deferred"": {
          ""Deferred"": ""PK:Blog""
        }
      }
    },
    {
      ""name"": ""byline"",
      ""sqltype"": {
        ""KnownId"": {
          ""Ty"": ""Text""
        }
      },
      ""nullable"": true,
      ""pk"": false,
      ""auto"": false,
      ""unique"": false,
      ""default"": null
    },
    {
      ""name"": ""likes"",
      ""sqltype"": {
        ""KnownId"": {
          ""Ty"": ""Int""
        }
      },
      ""nullable"": false,
      ""pk"": false,
      ""auto"": false,
      ""unique"": false,
      ""default"": null
    }
  ]
}
");
    (* examples/getting_started/.butane/migrations/current/Post_tags_Many.table *)
    ("current", "Post_tags_Many.table", "{
  ""name"": ""Post_tags_Many"",
  ""columns"": [
    {
      ""name"": ""owner"",
      ""sqltype"": {
        ""KnownId"": {
          ""Ty"": ""Int""
        }
      },
      ""nullable"": false,
      ""pk"": false,
      ""auto"": false,
      ""unique"": false,
      ""default"": null,
      ""reference"": {
        ""Literal"": {
          ""table_name"": ""Post"",
          ""column_name"": ""id""
        }
      }
    },
    {
      ""name"": ""has"",
      ""sqltype"": {
        ""Deferred"": ""PK:Tag""
      },
      ""nullable"": false,
      ""pk"": false,
      ""auto"": false,
      ""unique"": false,
      ""default"": null,
      ""reference"": {
        ""Deferred"": {
          ""Deferred"": ""PK:Tag""
        }
      }
    }
  ]
}
");
    (* examples/getting_started/.butane/migrations/current/Tag.table *)
    ("current", "Tag.table", "{
  ""name"": ""Tag"",
  ""columns"": [
    {
      ""name"": ""tag"",
      ""sqltype"": {
        ""KnownId"": {
          ""Ty"": ""Text""
        }
      },
      ""nullable"": false,
      ""pk"": true,
      ""auto"": false,
      ""unique"": false,
      ""default"": null
    }
  ]
}
")];
  (* examples/getting_started/.butane/migrations/state.json *)
  rp_state := Some "{
  ""latest"": ""20240115_023841384_dbconstraints""
}
";
  (* examples/getting_started/.butane/clistate.json *)
  rp_cli := "{
  ""embedded"": true
}
";
  (* examples/getting_started/src/butane_migrations.rs *)
  rp_source := "//! Butane migrations embedded in Rust.

use butane::migrations::MemMigrations;

/// Load the butane migrations embedded in Rust.
pub fn get_migrations() -> Result<MemMigrations, butane::Error> {
    let json = r#""{
  ""migrations"": {
    ""20201229_144636751_init"": {
      ""name"": ""20201229_144636751_init"",
      ""db"": {
        ""tables"": {
          ""Blog"": {
            ""name"": ""Blog"",
            ""columns"": [
              {
                ""name"": ""id"",
                ""sqltype"": {
                  ""Known"": ""BigInt""
                },
                ""nullable"": false,
                ""pk"": true,
                ""auto"": true,
                ""unique"": false,
                ""default"": null
              },
              {
                ""name"": ""name"",
                ""sqltype"": {
                  ""Known"": ""Text""
                },
                ""nullable"": false,
                ""pk"": false,
                ""auto"": false,
                ""unique"": false,
                ""default"": null
              }
            ]
          },
          ""Post"": {
            ""name"": ""Post"",
            ""columns"": [
              {
                ""name"": ""id"",
                ""sqltype"": {
                  ""Known"": ""Int""
                },
                ""nullable"": false,
                ""pk"": true,
                ""auto"": true,
                ""unique"": false,
                ""default"": null
              },
              {
                ""name"": ""title"",
                ""sqltype"": {
                  ""Known"": ""Text""
                },
                ""nullable"": false,
                ""pk"": false,
                ""auto"": false,
                ""unique"": false,
                ""default"": null
              },
              {
                ""name"": ""body"",
                ""sqltype"": {
                  ""Known"": ""Text""
                },
                ""nullable"": false,
                ""pk"": false,
                ""auto"": false,
                ""unique"": false,
                ""default"": null
              },
              {
                ""name"": ""published"",
                ""sqltype"": {
                  ""Known"": ""Bool""
                },
                ""nullable"": false,
                ""pk"": false,
                ""auto"": false,
                ""unique"": false,
                ""default"": null
              },
              {
                ""name"": ""blog"",
                ""sqltype"": {
                  ""Known"": ""BigInt""
                },
                ""nullable"": false,
                ""pk"": false,
                ""auto"": false,
                ""unique"": false,
                ""default"": null
              },
              {
                ""name"": ""byline"",
                ""sqltype"": {
                  ""Known"": ""Text""
                },
                ""nullable"": true,
                ""pk"": false,
                ""auto"": false,
                ""unique"": false,
                ""default"": null
              }
            ]
          },
          ""Post_tags_Many"": {
            ""name"": ""Post_tags_Many"",
            ""columns"": [
              {
                ""name"": ""owner"",
                ""sqltype"": {
                  ""Known"": ""Int""
                },
                ""nullable"": false,
                ""pk"": false,
                ""auto"": false,
                ""unique"": false,
                ""default"": null
              },
              {
                ""name"": ""has"",
                ""sqltype"": {
                  ""Known"": ""Text""
                },
                ""nullable"": false,
                ""pk"": false,
                ""auto"": false,
                ""unique"": false,
                ""default"": null
              }
            ]
          },
          ""Tag"": {
            ""name"": ""Tag"",
            ""columns"": [
              {
                ""name"": ""tag"",
                ""sqltype"": {
                  ""Known"": ""Text""
                },
                ""nullable"": false,
                ""pk"": true,
                ""auto"": false,
                ""unique"": false,
                ""default"": null
              }
            ]
          }
        },
        ""extra_types"": {}
      },
      ""from"": null,
      ""up"": {
        ""pg"": ""CREATE TABLE Blog (\n\""id\"" BIGSERIAL NOT NULL PRIMARY KEY,\n\""name\"" TEXT NOT NULL\n);\nCREATE TABLE Post (\n\""id\"" SERIAL NOT NULL PRIMARY KEY,\ntitle TEXT NOT NULL,\nbody TEXT NOT NULL,\npublished BOOLEAN NOT NULL,\nblog BIGINT NOT NULL,\nbyline TEXT\n);\nCREATE TABLE Post_tags_Many (\n\""owner\"" INTEGER NOT NULL,\nhas TEXT NOT NULL\n);\nCREATE TABLE \""Tag\"" (\n\""tag\"" TEXT NOT NULL PRIMARY KEY\n);\nCREATE TABLE IF NOT EXISTS butane_migrations (\n\""name\"" TEXT NOT NULL PRIMARY KEY\n);\n"",
        ""sqlite"": ""CREATE TABLE Blog (\n\""id\"" INTEGER NOT NULL PRIMARY KEY,\n\""name\"" TEXT NOT NULL\n) STRICT;\nCREATE TABLE Post (\n\""id\"" INTEGER NOT NULL PRIMARY KEY,\ntitle TEXT NOT NULL,\nbody TEXT NOT NULL,\npublished INTEGER NOT NULL,\nblog INTEGER NOT NULL,\nbyline TEXT\n) STRICT;\nCREATE TABLE Post_tags_Many (\n\""owner\"" INTEGER NOT NULL,\nhas TEXT NOT NULL\n) STRICT;\nCREATE TABLE \""Tag\"" (\n\""tag\"" TEXT NOT NULL PRIMARY KEY\n) STRICT;\nCREATE TABLE IF NOT EXISTS butane_migrations (\n\""name\"" TEXT NOT NULL PRIMARY KEY\n) STRICT;\n"",
        ""turso"": ""CREATE TABLE Blog (\""id\"" INTEGER NOT NULL PRIMARY KEY, \""name\"" TEXT NOT NULL);\nCREATE TABLE Post (\n    \""id\"" INTEGER NOT NULL PRIMARY KEY,\n    title TEXT NOT NULL,\n    body TEXT NOT NULL,\n    published INTEGER NOT NULL,\n    blog INTEGER NOT NULL,\n    byline TEXT\n);\nCREATE TABLE Post_tags_Many (\""owner\"" INTEGER NOT NULL, has TEXT NOT NULL);\nCREATE TABLE \""Tag\"" (\""tag\"" TEXT NOT NULL PRIMARY KEY);\nCREATE TABLE IF NOT EXISTS butane_migrations (\""name\"" TEXT NOT NULL PRIMARY KEY);\n""
      },
      ""down"": {
        ""pg"": ""DROP TABLE Blog;\nDROP TABLE Post;\nDROP TABLE Post_tags_Many;\nDROP TABLE \""Tag\"";\n"",
        ""sqlite"": ""DROP TABLE Blog;\nDROP TABLE Post;\nDROP TABLE Post_tags_Many;\nDROP TABLE \""Tag\"";\n"",
        ""turso"": ""DROP TABLE Blog;\nDROP TABLE Post;\nDROP TABLE Post_tags_Many;\nDROP TABLE \""Tag\"";\n""
      }
    },
    ""20201229_171630604_likes"": {
      ""name"": ""20201229_171630604_likes"",
      ""db"": {
        ""tables"": {
          ""Blog"": {
            ""name"": ""Blog"",
            ""columns"": [
              {
                ""name"": ""id"",
                ""sqltype"": {
                  ""Known"": ""BigInt""
                },
                ""nullable"": false,
                ""pk"": true,
                ""auto"": true,
                ""unique"": false,
                ""default"": null
              },
              {
                ""name"": ""name"",
                ""sqltype"": {
                  ""Known"": ""Text""
                },
                ""nullable"": false,
                ""pk"": false,
                ""auto"": false,
                ""unique"": false,
                ""default"": null
              }
            ]
          },
          ""Post"": {
            ""name"": ""Post"",
            ""columns"": [
              {
                ""name"": ""id"",
                ""sqltype"": {
                  ""Known"": ""Int""
                },
                ""nullable"": false,
                ""pk"": true,
                ""auto"": true,
                ""unique"": false,
                ""default"": null
              },
              {
                ""name"": ""title"",
                ""sqltype"": {
                  ""Known"": ""Text""
                },
                ""nullable"": false,
                ""pk"": false,
                ""auto"": false,
                ""unique"": false,
                ""default"": null
              },
              {
                ""name"": ""body"",
                ""sqltype"": {
                  ""Known"": ""Text""
                },
                ""nullable"": false,
                ""pk"": false,
                ""auto"": false,
                ""unique"": false,
                ""default"": null
              },
              {
                ""name"": ""published"",
                ""sqltype"": {
                  ""Known"": ""Bool""
                },
                ""nullable"": false,
                ""pk"": false,
                ""auto"": false,
                ""unique"": false,
                ""default"": null
              },
              {
                ""name"": ""blog"",
                ""sqltype"": {
                  ""Known"": ""BigInt""
                },
                ""nullable"": false,
                ""pk"": false,
                ""auto"": false,
                ""unique"": false,
                ""default"": null
              },
              {
                ""name"": ""byline"",
                ""sqltype"": {
                  ""Known"": ""Text""
                },
                ""nullable"": true,
                ""pk"": false,
                ""auto"": false,
                ""unique"": false,
                ""default"": null
              },
              {
                ""name"": ""likes"",
                ""sqltype"": {
                  ""Known"": ""Int""
                },
                ""nullable"": false,
                ""pk"": false,
                ""auto"": false,
                ""unique"": false,
                ""default"": null
              }
            ]
          },
          ""Post_tags_Many"": {
            ""name"": ""Post_tags_Many"",
            ""columns"": [
              {
                ""name"": ""owner"",
                ""sqltype"": {
                  ""Known"": ""Int""
                },
                ""nullable"": false,
                ""pk"": false,
                ""auto"": false,
                ""unique"": false,
                ""default"": null
              },
              {
                ""name"": ""has"",
                ""sqltype"": {
                  ""Known"": ""Text""
                },
                ""nullable"": false,
                ""pk"": false,
                ""auto"": false,
                ""unique"": false,
                ""default"": null
              }
            ]
          },
          ""Tag"": {
            ""name"": ""Tag"",
            ""columns"": [
              {
                ""name"": ""tag"",
                ""sqltype"": {
                  ""Known"": ""Text""
                },
                ""nullable"": false,
                ""pk"": true,
                ""auto"": false,
                ""unique"": false,
                ""default"": null
              }
            ]
          }
        },
        ""extra_types"": {}
      },
      ""from"": ""20201229_144636751_init"",
      ""up"": {
        ""pg"": ""ALTER TABLE Post ADD COLUMN likes INTEGER NOT NULL DEFAULT 0;\n"",
        ""sqlite"": ""ALTER TABLE Post ADD COLUMN likes INTEGER NOT NULL DEFAULT 0;\n"",
        ""turso"": ""ALTER TABLE Post ADD COLUMN likes INTEGER NOT NULL DEFAULT 0;\n""
      },
      ""down"": {
        ""pg"": ""ALTER TABLE Post DROP COLUMN likes;\n"",
        ""sqlite"": ""ALTER TABLE Post DROP COLUMN likes;\n"",
        ""turso"": ""ALTER TABLE Post DROP COLUMN likes;\n""
      }
    },
    ""20240115_023841384_dbconstraints"": {
      ""name"": ""20240115_023841384_dbconstraints"",
      ""db"": {
        ""tables"": {
          ""Blog"": {
            ""name"": ""Blog"",
            ""columns"": [
              {
                ""name"": ""id"",
                ""sqltype"": {
                  ""Known"": ""BigInt""
                },
                ""nullable"": false,
                ""pk"": true,
                ""auto"": true,
                ""unique"": false,
                ""default"": null
              },
              {
                ""name"": ""name"",
                ""sqltype"": {
                  ""Known"": ""Text""
                },
                ""nullable"": false,
                ""pk"": false,
                ""auto"": false,
                ""unique"": false,
                ""default"": null
              }
            ]
          },
          ""Post"": {
            ""name"": ""Post"",
            ""columns"": [
              {
                ""name"": ""id"",
                ""sqltype"": {
                  ""KnownId"": {
                    ""Ty"": ""Int""
                  }
                },
                ""nullable"": false,
                ""pk"": true,
                ""auto"": true,
                ""unique"": false,
                ""default"": null
              },
              {
                ""name"": ""title"",
                ""sqltype"": {
                  ""KnownId"": {
                    ""Ty"": ""Text""
                  }
                },
                ""nullable"": false,
                ""pk"": false,
                ""auto"": false,
                ""unique"": false,
                ""default"": null
              },
              {
                ""name"": ""body"",
                ""sqltype"": {
                  ""KnownId"": {
                    ""Ty"": ""Text""
                  }
                },
                ""nullable"": false,
                ""pk"": false,
                ""auto"": false,
                ""unique"": false,
                ""default"": null
              },
              {
                ""name"": ""published"",
                ""sqltype"": {
                  ""KnownId"": {
                    ""Ty"": ""Bool""
                  }
                },
                ""nullable"": false,
                ""pk"": false,
                ""auto"": false,
                ""unique"": false,
                ""default"": null
              },
              {
                ""name"": ""blog"",
                ""sqltype"": {
                  ""KnownId"": {
                    ""Ty"": ""BigInt""
                  }
                },
                ""nullable"": false,
                ""pk"": false,
                ""auto"": false,
                ""unique"": false,
                ""default"": null,
                ""reference"": {
                  ""Literal"": {
                    ""table_name"": ""Blog"",
                    ""column_name"": ""id""
                  }
                }
              },
              {
                ""name"": ""byline"",
                ""sqltype"": {
                  ""KnownId"": {
                    ""Ty"": ""Text""
                  }
                },
                ""nullable"": true,
                ""pk"": false,
                ""auto"": false,
                ""unique"": false,
                ""default"": null
              },
              {
                ""name"": ""likes"",
                ""sqltype"": {
                  ""KnownId"": {
                    ""Ty"": ""Int""
                  }
                },
                ""nullable"": false,
                ""pk"": false,
                ""auto"": false,
                ""unique"": false,
                ""default"": null
              }
            ]
          },
          ""Post_tags_Many"": {
            ""name"": ""Post_tags_Many"",
            ""columns"": [
              {
                ""name"": ""owner"",
                ""sqltype"": {
                  ""KnownId"": {
                    ""Ty"": ""Int""
                  }
                },
                ""nullable"": false,
                ""pk"": false,
                ""auto"": false,
                ""unique"": false,
                ""default"": null,
                ""reference"": {
                  ""Literal"": {
                    ""table_name"": ""Post"",
                    ""column_name"": ""id""
                  }
                }
              },
              {
                ""name"": ""has"",
                ""sqltype"": {
                  ""KnownId"": {
                    ""Ty"": ""Text""
                  }
                },
                ""nullable"": false,
                ""pk"": false,
                ""auto"": false,
                ""unique"": false,
                ""default"": null,
                ""reference"": {
                  ""Literal"": {
                    ""table_name"": ""Tag"",
                    ""column_name"": ""tag""
                  }
                }
              }
            ]
          },
          ""Tag"": {
            ""name"": ""Tag"",
            ""columns"": [
              {
                ""name"": ""tag"",
                ""sqltype"": {
                  ""Known"": ""Text""
                },
                ""nullable"": false,
                ""pk"": true,
                ""auto"": false,
                ""unique"": false,
                ""default"": null
              }
            ]
          }
        },
        ""extra_types"": {}
      },
      ""from"": ""20201229_171630604_likes"",
      ""up"": {
        ""pg"": ""ALTER TABLE Post ADD FOREIGN KEY (blog) REFERENCES Blog(\""id\"");\nALTER TABLE Post_tags_Many ADD FOREIGN KEY (has) REFERENCES \""Tag\""(\""tag\"");\nALTER TABLE Post_tags_Many ADD FOREIGN KEY (\""owner\"") REFERENCES Post(\""id\"");\n"",
        ""sqlite"": ""CREATE TABLE Post__butane_tmp (\n\""id\"" INTEGER NOT NULL PRIMARY KEY,\ntitle TEXT NOT NULL,\nbody TEXT NOT NULL,\npublished INTEGER NOT NULL,\nblog INTEGER NOT NULL,\nbyline TEXT,\nlikes INTEGER NOT NULL,\nFOREIGN KEY (blog) REFERENCES Blog(\""id\"")\n) STRICT;\nINSERT INTO Post__butane_tmp SELECT \""id\"", title, body, published, blog, byline, likes FROM Post;\nDROP TABLE Post;\nALTER TABLE Post__butane_tmp RENAME TO Post;\nCREATE TABLE Post_tags_Many__butane_tmp (\n\""owner\"" INTEGER NOT NULL,\nhas TEXT NOT NULL,\nFOREIGN KEY (has) REFERENCES \""Tag\""(\""tag\"")\n) STRICT;\nINSERT INTO Post_tags_Many__butane_tmp SELECT \""owner\"", has FROM Post_tags_Many;\nDROP TABLE Post_tags_Many;\nALTER TABLE Post_tags_Many__butane_tmp RENAME TO Post_tags_Many;\nCREATE TABLE Post_tags_Many__butane_tmp (\n\""owner\"" INTEGER NOT NULL,\nhas TEXT NOT NULL,\nFOREIGN KEY (\""owner\"") REFERENCES Post(\""id\"")\nFOREIGN KEY (has) REFERENCES \""Tag\""(\""tag\"")\n) STRICT;\nINSERT INTO Post_tags_Many__butane_tmp SELECT \""owner\"", has FROM Post_tags_Many;\nDROP TABLE Post_tags_Many;\nALTER TABLE Post_tags_Many__butane_tmp RENAME TO Post_tags_Many;\n"",
        ""turso"": ""CREATE TABLE Post__butane_tmp (\n    \""id\"" INTEGER NOT NULL PRIMARY KEY,\n    title TEXT NOT NULL,\n    body TEXT NOT NULL,\n    published INTEGER NOT NULL,\n    blog INTEGER NOT NULL,\n    byline TEXT,\n    likes INTEGER NOT NULL,\n    FOREIGN KEY (blog) REFERENCES Blog(\""id\"")\n);\nINSERT INTO Post__butane_tmp SELECT \""id\"", title, body, published, blog, byline, likes FROM Post;\nDROP TABLE Post;\nALTER TABLE Post__butane_tmp RENAME TO Post;\nCREATE TABLE Post_tags_Many__butane_tmp (\n    \""owner\"" INTEGER NOT NULL,\n    has TEXT NOT NULL,\n    FOREIGN KEY (has) REFERENCES \""Tag\""(\""tag\"")\n);\nINSERT INTO Post_tags_Many__butane_tmp SELECT \""owner\"", has FROM Post_tags_Many;\nDROP TABLE Post_tags_Many;\nALTER TABLE Post_tags_Many__butane_tmp RENAME TO Post_tags_Many;\nCREATE TABLE Post_tags_Many__butane_tmp (\n    \""owner\"" INTEGER NOT NULL,\n    has TEXT NOT NULL,\n    FOREIGN KEY (\""owner\"") REFERENCES Post(\""id\""),\n    FOREIGN KEY (has) REFERENCES \""Tag\""(\""tag\"")\n);\nINSERT INTO Post_tags_Many__butane_tmp SELECT \""owner\"", has FROM Post_tags_Many;\nDROP TABLE Post_tags_Many;\nALTER TABLE Post_tags_Many__butane_tmp RENAME TO Post_tags_Many;\n""
      },
      ""down"": {
        ""pg"": ""ALTER TABLE Post DROP CONSTRAINT Post_blog_fkey;\nALTER TABLE Post_tags_Many DROP CONSTRAINT Post_tags_Many_has_fkey;\nALTER TABLE Post_tags_Many DROP CONSTRAINT Post_tags_Many_owner_fkey;\n"",
        ""sqlite"": ""CREATE TABLE Post__butane_tmp (\n\""id\"" INTEGER NOT NULL PRIMARY KEY,\ntitle TEXT NOT NULL,\nbody TEXT NOT NULL,\npublished INTEGER NOT NULL,\nblog INTEGER NOT NULL,\nbyline TEXT,\nlikes INTEGER NOT NULL\n) STRICT;\nINSERT INTO Post__butane_tmp SELECT \""id\"", title, body, published, blog, byline, likes FROM Post;\nDROP TABLE Post;\nALTER TABLE Post__butane_tmp RENAME TO Post;\nCREATE TABLE Post_tags_Many__butane_tmp (\n\""owner\"" INTEGER NOT NULL,\nhas TEXT NOT NULL,\nFOREIGN KEY (\""owner\"") REFERENCES Post(\""id\"")\n) STRICT;\nINSERT INTO Post_tags_Many__butane_tmp SELECT \""owner\"", has FROM Post_tags_Many;\nDROP TABLE Post_tags_Many;\nALTER TABLE Post_tags_Many__butane_tmp RENAME TO Post_tags_Many;\nCREATE TABLE Post_tags_Many__butane_tmp (\n\""owner\"" INTEGER NOT NULL,\nhas TEXT NOT NULL\n) STRICT;\nINSERT INTO Post_tags_Many__butane_tmp SELECT \""owner\"", has FROM Post_tags_Many;\nDROP TABLE Post_tags_Many;\nALTER TABLE Post_tags_Many__butane_tmp RENAME TO Post_tags_Many;\n"",
        ""turso"": ""CREATE TABLE Post__butane_tmp (\n    \""id\"" INTEGER NOT NULL PRIMARY KEY,\n    title TEXT NOT NULL,\n    body TEXT NOT NULL,\n    published INTEGER NOT NULL,\n    blog INTEGER NOT NULL,\n    byline TEXT,\n    likes INTEGER NOT NULL\n);\nINSERT INTO Post__butane_tmp SELECT \""id\"", title, body, published, blog, byline, likes FROM Post;\nDROP TABLE Post;\nALTER TABLE Post__butane_tmp RENAME TO Post;\nCREATE TABLE Post_tags_Many__butane_tmp (\n    \""owner\"" INTEGER NOT NULL,\n    has TEXT NOT NULL,\n    FOREIGN KEY (\""owner\"") REFERENCES Post(\""id\"")\n);\nINSERT INTO Post_tags_Many__butane_tmp SELECT \""owner\"", has FROM Post_tags_Many;\nDROP TABLE Post_tags_Many;\nALTER TABLE Post_tags_Many__butane_tmp RENAME TO Post_tags_Many;\nCREATE TABLE Post_tags_Many__butane_tmp (\""owner\"" INTEGER NOT NULL, has TEXT NOT NULL);\nINSERT INTO Post_tags_Many__butane_tmp SELECT \""owner\"", has FROM Post_tags_Many;\nDROP TABLE Post_tags_Many;\nALTER TABLE Post_tags_Many__butane_tmp RENAME TO Post_tags_Many;\n""
      }
    }
  },
  ""current"": {
    ""name"": ""current"",
    ""db"": {
      ""tables"": {},
      ""extra_types"": {}
    },
    ""from"": null,
    ""up"": {},
    ""down"": {}
  },
  ""latest"": ""20240115_023841384_dbconstraints""
}""#;
    MemMigrations::from_json(json)
}
" |}.

(** examples/newtype *)
Definition repo_newtype : repo_project := {|
  rp_files := [
    (* examples/newtype/.butane/migrations/20240401_095709389_init/Blog.table *)
    ("20240401_095709389_init", "Blog.table", "{
  ""name"": ""Blog"",
  ""columns"": [
    {
      ""name"": ""id"",
      ""sqltype"": {
        ""KnownId"": {
          ""Ty"": ""Blob""
        }
      },
      ""nullable"": false,
      ""pk"": true,
      ""auto"": false,
      ""unique"": false,
      ""default"": null
    },
    {
      ""name"": ""name"",
      ""sqltype"": {
        ""KnownId"": {
          ""Ty"": ""Text""
        }
      },
      ""nullable"": false,
      ""pk"": false,
      ""auto"": false,
      ""unique"": false,
      ""default"": null
    }
  ]
}
");
    (* examples/newtype/.butane/migrations/20240401_095709389_init/Post.table *)
    ("20240401_095709389_init", "Post.table", "{
  ""name"": ""Post"",
  ""columns"": [
    {
      ""name"": ""id"",
      ""sqltype"": {
        ""KnownId"": {
          ""Ty"": ""Blob""
        }
      },
      ""nullable"": false,
      ""pk"": true,
      ""auto"": false,
      ""unique"": false,
      ""default"": null
    },
    {
      ""name"": ""title"",
      ""sqltype"": {
        ""KnownId"": {
          ""Ty"": ""Text""
        }
      },
      ""nullable"": false,
      ""pk"": false,
      ""auto"": false,
      ""unique"": false,
      ""default"": null
    },
    {
      ""name"": ""body"",
      ""sqltype"": {
        ""KnownId"": {
          ""Ty"": ""Text""
        }
      },
      ""nullable"": false,
      ""pk"": false,
      ""auto"": false,
      ""unique"": false,
      ""default"": null
    },
    {
      ""name"": ""published"",
      ""sqltype"": {
        ""KnownId"": {
          ""Ty"": ""Bool""
        }
      },
      ""nullable"": false,
      ""pk"": false,
      ""auto"": false,
      ""unique"": false,
      ""default"": null
    },
    {
      ""name"": ""blog"",
      ""sqltype"": {
        ""KnownId"": {
          ""Ty"": ""Blob""
        }
      },
      ""nullable"": false,
      ""pk"": false,
      ""auto"": false,
      ""unique"": false,
      ""default"": null,
      ""reference"": {
        ""Literal"": {
          ""table_name"": ""Blog"",
          ""column_name"": ""id""
        }
      }
    },
    {
      ""name"": ""byline"",
      ""sqltype"": {
        ""KnownId"": {
          ""Ty"": ""Text""
        }
      },
      ""nullable"": true,
      ""pk"": false,
      ""auto"": false,
      ""unique"": false,
      ""default"": null
    },
    {
      ""name"": ""likes"",
      ""sqltype"": {
        ""KnownId"": {
          ""Ty"": ""Int""
        }
      },
      ""nullable"": false,
      ""pk"": false,
      ""auto"": false,
      ""unique"": false,
      ""default"": null
    }
  ]
}
");
    (* examples/newtype/.butane/migrations/20240401_095709389_init/Post_tags_Many.table *)
    ("20240401_095709389_init", "Post_tags_Many.table", "{
  ""name"": ""Post_tags_Many"",
  ""columns"": [
    {
      ""name"": ""owner"",
      ""sqltype"": {
        ""KnownId"": {
          ""Ty"": ""Blob""
        }
      },
      ""nullable"": false,
      ""pk"": false,
      ""auto"": false,
      ""unique"": false,
      ""default"": null,
      ""reference"": {
        ""Literal"": {
          ""table_name"": ""Post"",
          ""column_name"": ""id""
        }
      }
    },
    {
      ""name"": ""has"",
      ""sqltype"": {
        ""KnownId"": {
          ""Ty"": ""Text""
        }
      },
      ""nullable"": false,
      ""pk"": false,
      ""auto"": false,
      ""unique"": false,
      ""default"": null,
      ""reference"": {
        ""Literal"": {
          ""table_name"": ""Tag"",
          ""column_name"": ""tag""
        }
      }
    }
  ]
}
");
    (* examples/newtype/.butane/migrations/20240401_095709389_init/Tag.table *)
    ("20240401_095709389_init", "Tag.table", "{
  ""name"": ""Tag"",
  ""columns"": [
    {
      ""name"": ""tag"",
      ""sqltype"": {
        ""KnownId"": {
          ""Ty"": ""Text""
        }
      },
      ""nullable"": false,
      ""pk"": true,
      ""auto"": false,
      ""unique"": false,
      ""default"": null
    }
  ]
}
");
    (* examples/newtype/.butane/migrations/20240401_095709389_init/info.json *)
    ("20240401_095709389_init", "info.json", "{
  ""backends"": [
    ""sqlite"",
    ""pg"",
    ""turso""
  ]
}
");
    (* examples/newtype/.butane/migrations/20240401_095709389_init/pg_down.sql *)
    ("20240401_095709389_init", "pg_down.sql", "ALTER TABLE Post DROP CONSTRAINT Post_blog_fkey;
ALTER TABLE Post_tags_Many DROP CONSTRAINT Post_tags_Many_owner_fkey;
ALTER TABLE Post_tags_Many DROP CONSTRAINT Post_tags_Many_has_fkey;
DROP TABLE Blog;
DROP TABLE Post;
DROP TABLE Post_tags_Many;
DROP TABLE ""Tag"";
");
    (* examples/newtype/.butane/migrations/20240401_095709389_init/pg_up.sql *)
    ("20240401_095709389_init", "pg_up.sql", "CREATE TABLE Blog (
""id"" BYTEA NOT NULL PRIMARY KEY,
""name"" TEXT NOT NULL
);
CREATE TABLE Post (
""id"" BYTEA NOT NULL PRIMARY KEY,
title TEXT NOT NULL,
body TEXT NOT NULL,
published BOOLEAN NOT NULL,
blog BYTEA NOT NULL,
byline TEXT,
likes INTEGER NOT NULL
);
CREATE TABLE Post_tags_Many (
""owner"" BYTEA NOT NULL,
has TEXT NOT NULL
);
CREATE TABLE ""Tag"" (
""tag"" TEXT NOT NULL PRIMARY KEY
);
ALTER TABLE Post ADD FOREIGN KEY (blog) REFERENCES Blog(""id"");
ALTER TABLE Post_tags_Many ADD FOREIGN KEY (""owner"") REFERENCES Post(""id"");
ALTER TABLE Post_tags_Many ADD FOREIGN KEY (has) REFERENCES ""Tag""(""tag"");
CREATE TABLE IF NOT EXISTS butane_migrations (
""name"" TEXT NOT NULL PRIMARY KEY
);
");
    (* examples/newtype/.butane/migrations/20240401_095709389_init/sqlite_down.sql *)
    ("20240401_095709389_init", "sqlite_down.sql", "DROP TABLE Blog;
DROP TABLE Post;
DROP TABLE Post_tags_Many;
DROP TABLE ""Tag"";
");
    (* examples/newtype/.butane/migrations/20240401_095709389_init/sqlite_up.sql *)
    ("20240401_095709389_init", "sqlite_up.sql", "CREATE TABLE Blog (
""id"" BLOB NOT NULL PRIMARY KEY,
""name"" TEXT NOT NULL
) STRICT;
CREATE TABLE Post (
""id"" BLOB NOT NULL PRIMARY KEY,
title TEXT NOT NULL,
body TEXT NOT NULL,
published INTEGER NOT NULL,
blog BLOB NOT NULL,
byline TEXT,
likes INTEGER NOT NULL,
FOREIGN KEY (blog) REFERENCES Blog(""id"")
) STRICT;
CREATE TABLE Post_tags_Many (
""owner"" BLOB NOT NULL,
has TEXT NOT NULL,
FOREIGN KEY (""owner"") REFERENCES Post(""id"")
FOREIGN KEY (has) REFERENCES ""Tag""(""tag"")
) STRICT;
CREATE TABLE ""Tag"" (
""tag"" TEXT NOT NULL PRIMARY KEY
) STRICT;
CREATE TABLE IF NOT EXISTS butane_migrations (
""name"" TEXT NOT NULL PRIMARY KEY
) STRICT;
");
    (* examples/newtype/.butane/migrations/20240401_095709389_init/turso_down.sql *)
    ("20240401_095709389_init", "turso_down.sql", "DROP TABLE Blog;
DROP TABLE Post;
DROP TABLE Post_tags_Many;
DROP TABLE ""Tag"";
");
    (* examples/newtype/.butane/migrations/20240401_095709389_init/turso_up.sql *)
    ("20240401_095709389_init", "turso_up.sql", "CREATE TABLE Blog (""id"" BLOB NOT NULL PRIMARY KEY, ""name"" TEXT NOT NULL);
CREATE TABLE Post (
    ""id"" BLOB NOT NULL PRIMARY KEY,
    title TEXT NOT NULL,
    body TEXT NOT NULL,
    published INTEGER NOT NULL,
    blog BLOB NOT NULL,
    byline TEXT,
    likes INTEGER NOT NULL,
    FOREIGN KEY (blog) REFERENCES Blog(""id"")
);
CREATE TABLE Post_tags_Many (
    ""owner"" BLOB NOT NULL,
    has TEXT NOT NULL,
    FOREIGN KEY (""owner"") REFERENCES Post(""id""),
    FOREIGN KEY (has) REFERENCES ""Tag""(""tag"")
);
CREATE TABLE ""Tag"" (""tag"" TEXT NOT NULL PRIMARY KEY);
CREATE TABLE IF NOT EXISTS butane_migrations (""name"" TEXT NOT NULL PRIMARY KEY);
");
    (* examples/newtype/.butane/migrations/20240406_035726416_tags/Post.table *)
    ("20240406_035726416_tags", "Post.table", "{
  ""name"": ""Post"",
  ""columns"": [
    {
      ""name"": ""id"",
      ""sqltype"": {
        ""KnownId"": {
          ""Ty"": ""Blob""
        }
      },
      ""nullable"": false,
      ""pk"": true,
      ""auto"": false,
      ""unique"": false,
      ""default"": null
    },
    {
      ""name"": ""title"",
      ""sqltype"": {
        ""KnownId"": {
          ""Ty"": ""Text""
        }
      },
      ""nullable"": false,
      ""pk"": false,
      ""auto"": false,
      ""unique"": false,
      ""default"": null
    },
    {
      ""name"": ""body"",
      ""sqltype"": {
        ""KnownId"": {
          ""Ty"": ""Text""
        }
      },
      ""nullable"": false,
      ""pk"": false,
      ""auto"": false,
      ""unique"": false,
      ""default"": null
    },
    {
      ""name"": ""published"",
      ""sqltype"": {
        ""KnownId"": {
          ""Ty"": ""Bool""
        }
      },
      ""nullable"": false,
      ""pk"": false,
      ""auto"": false,
      ""unique"": false,
      ""default"": null
    },
    {
      ""name"": ""tags"",
      ""sqltype"": {
        ""KnownId"": {
          ""Ty"": ""Json""
        }
      },
      ""nullable"": false,
      ""pk"": false,
      ""auto"": false,
      ""unique"": false,
      ""default"": null
    },
    {
      ""name"": ""blog"",
      ""sqltype"": {
        ""KnownId"": {
          ""Ty"": ""Blob""
        }
      },
      ""nullable"": false,
      ""pk"": false,
      ""auto"": false,
      ""unique"": false,
      ""default"": null,
      ""reference"": {
        ""Literal"": {
          ""table_name"": ""Blog"",
          ""column_name"": ""id""
        }
      }
    },
    {
      ""name"": ""byline"",
      ""sqltype"": {
        ""KnownId"": {
          ""Ty"": ""Text""
        }
      },
      ""nullable"": true,
      ""pk"": false,
      ""auto"": false,
      ""unique"": false,
      ""default"": null
    },
    {
      ""name"": ""likes"",
      ""sqltype"": {
        ""KnownId"": {
          ""Ty"": ""Int""
        }
      },
      ""nullable"": false,
      ""pk"": false,
      ""auto"": false,
      ""unique"": false,
      ""default"": null
    }
  ]
}
");
    (* examples/newtype/.butane/migrations/20240406_035726416_tags/info.json *)
    ("20240406_035726416_tags", "info.json", "{
  ""from_name"": ""20240401_095709389_init"",
  ""table_bases"": {
    ""Blog"": ""20240401_095709389_init""
  },
  ""backends"": [
    ""sqlite"",
    ""pg"",
    ""turso""
  ]
}
");
    (* examples/newtype/.butane/migrations/20240406_035726416_tags/pg_down.sql *)
    ("20240406_035726416_tags", "pg_down.sql", "CREATE TABLE Post_tags_Many (
""owner"" BYTEA NOT NULL,
has TEXT NOT NULL
);
CREATE TABLE ""Tag"" (
""tag"" TEXT NOT NULL PRIMARY KEY
);
ALTER TABLE Post DROP COLUMN tags;
ALTER TABLE Post_tags_Many ADD FOREIGN KEY (""owner"") REFERENCES Post(""id"");
ALTER TABLE Post_tags_Many ADD FOREIGN KEY (has) REFERENCES ""Tag""(""tag"");
");
    (* examples/newtype/.butane/migrations/20240406_035726416_tags/pg_up.sql *)
    ("20240406_035726416_tags", "pg_up.sql", "ALTER TABLE Post_tags_Many DROP CONSTRAINT Post_tags_Many_owner_fkey;
ALTER TABLE Post_tags_Many DROP CONSTRAINT Post_tags_Many_has_fkey;
DROP TABLE Post_tags_Many;
DROP TABLE ""Tag"";
ALTER TABLE Post ADD COLUMN tags JSONB NOT NULL DEFAULT null;
");
    (* examples/newtype/.butane/migrations/20240406_035726416_tags/sqlite_down.sql *)
    ("20240406_035726416_tags", "sqlite_down.sql", "CREATE TABLE Post_tags_Many (
""owner"" BLOB NOT NULL,
has TEXT NOT NULL,
FOREIGN KEY (""owner"") REFERENCES Post(""id"")
FOREIGN KEY (has) REFERENCES ""Tag""(""tag"")
) STRICT;
CREATE TABLE ""Tag"" (
""tag"" TEXT NOT NULL PRIMARY KEY
) STRICT;
ALTER TABLE Post DROP COLUMN tags;
");
    (* examples/newtype/.butane/migrations/20240406_035726416_tags/sqlite_up.sql *)
    ("20240406_035726416_tags", "sqlite_up.sql", "DROP TABLE Post_tags_Many;
DROP TABLE ""Tag"";
ALTER TABLE Post ADD COLUMN tags TEXT NOT NULL DEFAULT null;
");
    (* examples/newtype/.butane/migrations/20240406_035726416_tags/turso_down.sql *)
    ("20240406_035726416_tags", "turso_down.sql", "CREATE TABLE Post_tags_Many (
    ""owner"" BLOB NOT NULL,
    has TEXT NOT NULL,
    FOREIGN KEY (""owner"") REFERENCES Post(""id""),
    FOREIGN KEY (has) REFERENCES ""Tag""(""tag"")
);
CREATE TABLE ""Tag"" (""tag"" TEXT NOT NULL PRIMARY KEY);
ALTER TABLE Post DROP COLUMN tags;
");
    (* examples/newtype/.butane/migrations/20240406_035726416_tags/turso_up.sql *)
    ("20240406_035726416_tags", "turso_up.sql", "DROP TABLE Post_tags_Many;
DROP TABLE ""Tag"";
ALTER TABLE Post ADD COLUMN tags TEXT NOT NULL DEFAULT null;
");
    (* examples/newtype/.butane/migrations/current/Blog.table *)
    ("current", "Blog.table", "{
  ""name"": ""Blog"",
  ""columns"": [
    {
      ""name"": ""id"",
      ""sqltype"": {
        ""Deferred"": ""CT:BlogId""
      },
      ""nullable"": false,
      ""pk"": true,
      ""auto"": false,
      ""unique"": false,
      ""default"": null
    },
    {
      ""name"": ""name"",
      ""sqltype"": {
        ""Deferred"": ""CT:BlogName""
      },
      ""nullable"": false,
      ""pk"": false,
      ""auto"": false,
      ""unique"": false,
      ""default"": null
    }
  ]
}
");
    (* examples/newtype/.butane/migrations/current/Post.table *)
    ("current", "Post.table", "{
  ""name"": ""Post"",
  ""columns"": [
    {
      ""name"": ""id"",
      ""sqltype"": {
        ""Deferred"": ""CT:PostId""
      },
      ""nullable"": false,
      ""pk"": true,
      ""auto"": false,
      ""unique"": false,
      ""default"": null
    },
    {
      ""name"": ""title"",
      ""sqltype"": {
        ""KnownId"": {
          ""Ty"": ""Text""
        }
      },
      ""nullable"": false,
      ""pk"": false,
      ""auto"": false,
      ""unique"": false,
      ""default"": null
    },
    {
      ""name"": ""body"",
      ""sqltype"": {
        ""KnownId"": {
          ""Ty"": ""Text""
        }
      },
      ""nullable"": false,
      ""pk"": false,
      ""auto"": false,
      ""unique"": false,
      ""default"": null
    },
    {
      ""name"": ""published"",
      ""sqltype"": {
        ""KnownId"": {
          ""Ty"": ""Bool""
        }
      },
      ""nullable"": false,
      ""pk"": false,
      ""auto"": false,
      ""unique"": false,
      ""default"": null
    },
    {
      ""name"": ""tags"",
      ""sqltype"": {
        ""Deferred"": ""CT:Tags""
      },
      ""nullable"": false,
      ""pk"": false,
      ""auto"": false,
      ""unique"": false,
      ""default"": null
    },
    {
      ""name"": ""blog"",
      ""sqltype"": {
        ""Deferred"": ""PK:Blog""
      },
      ""nullable"": false,
      ""pk"": false,
      ""auto"": false,
      ""unique"": false,
      ""default"": null,
      ""reference"": {
        ""Deferred"": {
          ""Deferred"": ""PK:Blog""
        }
      }
    },
    {
      ""name"": ""byline"",
      ""sqltype"": {
        ""KnownId"": {
          ""Ty"": ""Text""
        }
      },
      ""nullable"": true,
      ""pk"": false,
      ""auto"": false,
      ""unique"": false,
      ""default"": null
    },
    {
      ""name"": ""likes"",
      ""sqltype"": {
        ""KnownId"": {
          ""Ty"": ""Int""
        }
      },
      ""nullable"": false,
      ""pk"": false,
      ""auto"": false,
      ""unique"": false,
      ""default"": null
    }
  ]
}
");
    (* examples/newtype/.butane/migrations/current/types.json *)
    ("current", "types.json", "{""CT:BlogId"":{""KnownId"":{""Ty"":""Blob""}},""CT:BlogName"":{""KnownId"":{""Ty"":""Text""}},""CT:PostId"":{""KnownId"":{""Ty"":""Blob""}},""CT:Tags"":{""KnownId"":{""Ty"":""Json""}}}
")];
  (* examples/newtype/.butane/migrations/state.json *)
  rp_state := Some "{
  ""latest"": ""20240406_035726416_tags""
}
";
  (* examples/newtype/.butane/clistate.json *)
  rp_cli := "{
  ""embedded"": true
}
";
  (* examples/newtype/src/butane_migrations.rs *)
  rp_source := "//! Butane migrations embedded in Rust.

use butane::migrations::MemMigrations;

/// Load the butane migrations embedded in Rust.
pub fn get_migrations() -> Result<MemMigrations, butane::Error> {
    let json = r#""{
  ""migrations"": {
    ""20240401_095709389_init"": {
      ""name"": ""20240401_095709389_init"",
      ""db"": {
        ""tables"": {
          ""Blog"": {
            ""name"": ""Blog"",
            ""columns"": [
              {
                ""name"": ""id"",
                ""sqltype"": {
                  ""KnownId"": {
                    ""Ty"": ""Blob""
                  }
                },
                ""nullable"": false,
                ""pk"": true,
                ""auto"": false,
                ""unique"": false,
                ""default"": null
              },
              {
                ""name"": ""name"",
                ""sqltype"": {
                  ""KnownId"": {
                    ""Ty"": ""Text""
                  }
                },
                ""nullable"": false,
                ""pk"": false,
                ""auto"": false,
                ""unique"": false,
                ""default"": null
              }
            ]
          },
          ""Post"": {
            ""name"": ""Post"",
            ""columns"": [
              {
                ""name"": ""id"",
                ""sqltype"": {
                  ""KnownId"": {
                    ""Ty"": ""Blob""
                  }
                },
                ""nullable"": false,
                ""pk"": true,
                ""auto"": false,
                ""unique"": false,
                ""default"": null
              },
              {
                ""name"": ""title"",
                ""sqltype"": {
                  ""KnownId"": {
                    ""Ty"": ""Text""
                  }
                },
                ""nullable"": false,
                ""pk"": false,
                ""auto"": false,
                ""unique"": false,
                ""default"": null
              },
              {
                ""name"": ""body"",
                ""sqltype"": {
                  ""KnownId"": {
                    ""Ty"": ""Text""
                  }
                },
                ""nullable"": false,
                ""pk"": false,
                ""auto"": false,
                ""unique"": false,
                ""default"": null
              },
              {
                ""name"": ""published"",
                ""sqltype"": {
                  ""KnownId"": {
                    ""Ty"": ""Bool""
                  }
                },
                ""nullable"": false,
                ""pk"": false,
                ""auto"": false,
                ""unique"": false,
                ""default"": null
              },
              {
                ""name"": ""blog"",
                ""sqltype"": {
                  ""KnownId"": {
                    ""Ty"": ""Blob""
                  }
                },
                ""nullable"": false,
                ""pk"": false,
                ""auto"": false,
                ""unique"": false,
                ""default"": null,
                ""reference"": {
                  ""Literal"": {
                    ""table_name"": ""Blog"",
                    ""column_name"": ""id""
                  }
                }
              },
              {
                ""name"": ""byline"",
                ""sqltype"": {
                  ""KnownId"": {
                    ""Ty"": ""Text""
                  }
                },
                ""nullable"": true,
                ""pk"": false,
                ""auto"": false,
                ""unique"": false,
                ""default"": null
              },
              {
                ""name"": ""likes"",
                ""sqltype"": {
                  ""KnownId"": {
                    ""Ty"": ""Int""
                  }
                },
                ""nullable"": false,
                ""pk"": false,
                ""auto"": false,
                ""unique"": false,
                ""default"": null
              }
            ]
          },
          ""Post_tags_Many"": {
            ""name"": ""Post_tags_Many"",
            ""columns"": [
              {
                ""name"": ""owner"",
                ""sqltype"": {
                  ""KnownId"": {
                    ""Ty"": ""Blob""
                  }
                },
                ""nullable"": false,
                ""pk"": false,
                ""auto"": false,
                ""unique"": false,
                ""default"": null,
                ""reference"": {
                  ""Literal"": {
                    ""table_name"": ""Post"",
                    ""column_name"": ""id""
                  }
                }
              },
              {
                ""name"": ""has"",
                ""sqltype"": {
                  ""KnownId"": {
                    ""Ty"": ""Text""
                  }
                },
                ""nullable"": false,
                ""pk"": false,
                ""auto"": false,
                ""unique"": false,
                ""default"": null,
                ""reference"": {
                  ""Literal"": {
                    ""table_name"": ""Tag"",
                    ""column_name"": ""tag""
                  }
                }
              }
            ]
          },
          ""Tag"": {
            ""name"": ""Tag"",
            ""columns"": [
              {
                ""name"": ""tag"",
                ""sqltype"": {
                  ""KnownId"": {
                    ""Ty"": ""Text""
                  }
                },
                ""nullable"": false,
                ""pk"": true,
                ""auto"": false,
                ""unique"": false,
                ""default"": null
              }
            ]
          }
        },
        ""extra_types"": {}
      },
      ""from"": null,
      ""up"": {
        ""pg"": ""CREATE TABLE Blog (\n\""id\"" BYTEA NOT NULL PRIMARY KEY,\n\""name\"" TEXT NOT NULL\n);\nCREATE TABLE Post (\n\""id\"" BYTEA NOT NULL PRIMARY KEY,\ntitle TEXT NOT NULL,\nbody TEXT NOT NULL,\npublished BOOLEAN NOT NULL,\nblog BYTEA NOT NULL,\nbyline TEXT,\nlikes INTEGER NOT NULL\n);\nCREATE TABLE Post_tags_Many (\n\""owner\"" BYTEA NOT NULL,\nhas TEXT NOT NULL\n);\nCREATE TABLE \""Tag\"" (\n\""tag\"" TEXT NOT NULL PRIMARY KEY\n);\nALTER TABLE Post ADD FOREIGN KEY (blog) REFERENCES Blog(\""id\"");\nALTER TABLE Post_tags_Many ADD FOREIGN KEY (\""owner\"") REFERENCES Post(\""id\"");\nALTER TABLE Post_tags_Many ADD FOREIGN KEY (has) REFERENCES \""Tag\""(\""tag\"");\nCREATE TABLE IF NOT EXISTS butane_migrations (\n\""name\"" TEXT NOT NULL PRIMARY KEY\n);\n"",
        ""sqlite"": ""CREATE TABLE Blog (\n\""id\"" BLOB NOT NULL PRIMARY KEY,\n\""name\"" TEXT NOT NULL\n) STRICT;\nCREATE TABLE Post (\n\""id\"" BLOB NOT NULL PRIMARY KEY,\ntitle TEXT NOT NULL,\nbody TEXT NOT NULL,\npublished INTEGER NOT NULL,\nblog BLOB NOT NULL,\nbyline TEXT,\nlikes INTEGER NOT NULL,\nFOREIGN KEY (blog) REFERENCES Blog(\""id\"")\n) STRICT;\nCREATE TABLE Post_tags_Many (\n\""owner\"" BLOB NOT NULL,\nhas TEXT NOT NULL,\nFOREIGN KEY (\""owner\"") REFERENCES Post(\""id\"")\nFOREIGN KEY (has) REFERENCES \""Tag\""(\""tag\"")\n) STRICT;\nCREATE TABLE \""Tag\"" (\n\""tag\"" TEXT NOT NULL PRIMARY KEY\n) STRICT;\nCREATE TABLE IF NOT EXISTS butane_migrations (\n\""name\"" TEXT NOT NULL PRIMARY KEY\n) STRICT;\n"",
        ""turso"": ""CREATE TABLE Blog (\""id\"" BLOB NOT NULL PRIMARY KEY, \""name\"" TEXT NOT NULL);\nCREATE TABLE Post (\n    \""id\"" BLOB NOT NULL PRIMARY KEY,\n    title TEXT NOT NULL,\n    body TEXT NOT NULL,\n    published INTEGER NOT NULL,\n    blog BLOB NOT NULL,\n    byline TEXT,\n    likes INTEGER NOT NULL,\n    FOREIGN KEY (blog) REFERENCES Blog(\""id\"")\n);\nCREATE TABLE Post_tags_Many (\n    \""owner\"" BLOB NOT NULL,\n    has TEXT NOT NULL,\n    FOREIGN KEY (\""owner\"") REFERENCES Post(\""id\""),\n    FOREIGN KEY (has) REFERENCES \""Tag\""(\""tag\"")\n);\nCREATE TABLE \""Tag\"" (\""tag\"" TEXT NOT NULL PRIMARY KEY);\nCREATE TABLE IF NOT EXISTS butane_migrations (\""name\"" TEXT NOT NULL PRIMARY KEY);\n""
      },
      ""down"": {
        ""pg"": ""ALTER TABLE Post DROP CONSTRAINT Post_blog_fkey;\nALTER TABLE Post_tags_Many DROP CONSTRAINT Post_tags_Many_owner_fkey;\nALTER TABLE Post_tags_Many DROP CONSTRAINT Post_tags_Many_has_fkey;\nDROP TABLE Blog;\nDROP TABLE Post;\nDROP TABLE Post_tags_Many;\nDROP TABLE \""Tag\"";\n"",
        ""sqlite"": ""DROP TABLE Blog;\nDROP TABLE Post;\nDROP TABLE Post_tags_Many;\nDROP TABLE \""Tag\"";\n"",
        ""turso"": ""DROP TABLE Blog;\nDROP TABLE Post;\nDROP TABLE Post_tags_Many;\nDROP TABLE \""Tag\"";\n""
      }
    },
    ""20240406_035726416_tags"": {
      ""name"": ""20240406_035726416_tags"",
      ""db"": {
        ""tables"": {
          ""Blog"": {
            ""name"": ""Blog"",
            ""columns"": [
              {
                ""name"": ""id"",
                ""sqltype"": {
                  ""KnownId"": {
                    ""Ty"": ""Blob""
                  }
                },
                ""nullable"": false,
                ""pk"": true,
                ""auto"": false,
                ""unique"": false,
                ""default"": null
              },
              {
                ""name"": ""name"",
                ""sqltype"": {
                  ""KnownId"": {
                    ""Ty"": ""Text""
                  }
                },
                ""nullable"": false,
                ""pk"": false,
                ""auto"": false,
                ""unique"": false,
                ""default"": null
              }
            ]
          },
          ""Post"": {
            ""name"": ""Post"",
            ""columns"": [
              {
                ""name"": ""id"",
                ""sqltype"": {
                  ""KnownId"": {
                    ""Ty"": ""Blob""
                  }
                },
                ""nullable"": false,
                ""pk"": true,
                ""auto"": false,
                ""unique"": false,
                ""default"": null
              },
              {
                ""name"": ""title"",
                ""sqltype"": {
                  ""KnownId"": {
                    ""Ty"": ""Text""
                  }
                },
                ""nullable"": false,
                ""pk"": false,
                ""auto"": false,
                ""unique"": false,
                ""default"": null
              },
              {
                ""name"": ""body"",
                ""sqltype"": {
                  ""KnownId"": {
                    ""Ty"": ""Text""
                  }
                },
                ""nullable"": false,
                ""pk"": false,
                ""auto"": false,
                ""unique"": false,
                ""default"": null
              },
              {
                ""name"": ""published"",
                ""sqltype"": {
                  ""KnownId"": {
                    ""Ty"": ""Bool""
                  }
                },
                ""nullable"": false,
                ""pk"": false,
                ""auto"": false,
                ""unique"": false,
                ""default"": null
              },
              {
                ""name"": ""tags"",
                ""sqltype"": {
                  ""KnownId"": {
                    ""Ty"": ""Json""
                  }
                },
                ""nullable"": false,
                ""pk"": false,
                ""auto"": false,
                ""unique"": false,
                ""default"": null
              },
              {
                ""name"": ""blog"",
                ""sqltype"": {
                  ""KnownId"": {
                    ""Ty"": ""Blob""
                  }
                },
                ""nullable"": false,
                ""pk"": false,
                ""auto"": false,
                ""unique"": false,
                ""default"": null,
                ""reference"": {
                  ""Literal"": {
                    ""table_name"": ""Blog"",
                    ""column_name"": ""id""
                  }
                }
              },
              {
                ""name"": ""byline"",
                ""sqltype"": {
                  ""KnownId"": {
                    ""Ty"": ""Text""
                  }
                },
                ""nullable"": true,
                ""pk"": false,
                ""auto"": false,
                ""unique"": false,
                ""default"": null
              },
              {
                ""name"": ""likes"",
                ""sqltype"": {
                  ""KnownId"": {
                    ""Ty"": ""Int""
                  }
                },
                ""nullable"": false,
                ""pk"": false,
                ""auto"": false,
                ""unique"": false,
                ""default"": null
              }
            ]
          }
        },
        ""extra_types"": {}
      },
      ""from"": ""20240401_095709389_init"",
      ""up"": {
        ""pg"": ""ALTER TABLE Post_tags_Many DROP CONSTRAINT Post_tags_Many_owner_fkey;\nALTER TABLE Post_tags_Many DROP CONSTRAINT Post_tags_Many_has_fkey;\nDROP TABLE Post_tags_Many;\nDROP TABLE \""Tag\"";\nALTER TABLE Post ADD COLUMN tags JSONB NOT NULL DEFAULT null;\n"",
        ""sqlite"": ""DROP TABLE Post_tags_Many;\nDROP TABLE \""Tag\"";\nALTER TABLE Post ADD COLUMN tags TEXT NOT NULL DEFAULT null;\n"",
        ""turso"": ""DROP TABLE Post_tags_Many;\nDROP TABLE \""Tag\"";\nALTER TABLE Post ADD COLUMN tags TEXT NOT NULL DEFAULT null;\n""
      },
      ""down"": {
        ""pg"": ""CREATE TABLE Post_tags_Many (\n\""owner\"" BYTEA NOT NULL,\nhas TEXT NOT NULL\n);\nCREATE TABLE \""Tag\"" (\n\""tag\"" TEXT NOT NULL PRIMARY KEY\n);\nALTER TABLE Post DROP COLUMN tags;\nALTER TABLE Post_tags_Many ADD FOREIGN KEY (\""owner\"") REFERENCES Post(\""id\"");\nALTER TABLE Post_tags_Many ADD FOREIGN KEY (has) REFERENCES \""Tag\""(\""tag\"");\n"",
        ""sqlite"": ""CREATE TABLE Post_tags_Many (\n\""owner\"" BLOB NOT NULL,\nhas TEXT NOT NULL,\nFOREIGN KEY (\""owner\"") REFERENCES Post(\""id\"")\nFOREIGN KEY (has) REFERENCES \""Tag\""(\""tag\"")\n) STRICT;\nCREATE TABLE \""Tag\"" (\n\""tag\"" TEXT NOT NULL PRIMARY KEY\n) STRICT;\nALTER TABLE Post DROP COLUMN tags;\n"",
        ""turso"": ""CREATE TABLE Post_tags_Many (\n    \""owner\"" BLOB NOT NULL,\n    has TEXT NOT NULL,\n    FOREIGN KEY (\""owner\"") REFERENCES Post(\""id\""),\n    FOREIGN KEY (has) REFERENCES \""Tag\""(\""tag\"")\n);\nCREATE TABLE \""Tag\"" (\""tag\"" TEXT NOT NULL PRIMARY KEY);\nALTER TABLE Post DROP COLUMN tags;\n""
      }
    }
  },
  ""current"": {
    ""name"": ""current"",
    ""db"": {
      ""tables"": {},
      ""extra_types"": {}
    },
    ""from"": null,
    ""up"": {},
    ""down"": {}
  },
  ""latest"": ""20240406_035726416_tags""
}""#;
    MemMigrations::from_json(json)
}
" |}.

(** examples/reserved-words *)
Definition repo_reserved_words : repo_project := {|
  rp_files := [
    (* examples/reserved-words/.butane/migrations/20250503_065948927_init/User.table *)
    ("20250503_065948927_init", "User.table", "{
  ""name"": ""User"",
  ""columns"": [
    {
      ""name"": ""id"",
      ""sqltype"": {
        ""KnownId"": {
          ""Ty"": ""Text""
        }
      },
      ""nullable"": false,
      ""pk"": true,
      ""auto"": false,
      ""unique"": false,
      ""default"": null
    },
    {
      ""name"": ""name"",
      ""sqltype"": {
        ""KnownId"": {
          ""Ty"": ""Text""
        }
      },
      ""nullable"": false,
      ""pk"": false,
      ""auto"": false,
      ""unique"": false,
      ""default"": null
    },
    {
      ""name"": ""email"",
      ""sqltype"": {
        ""KnownId"": {
          ""Ty"": ""Text""
        }
      },
      ""nullable"": false,
      ""pk"": false,
      ""auto"": false,
      ""unique"": false,
      ""default"": null
    }
  ]
}
");
    (* examples/reserved-words/.butane/migrations/20250503_065948927_init/info.json *)
    ("20250503_065948927_init", "info.json", "{
  ""backends"": [
    ""sqlite"",
    ""pg"",
    ""turso""
  ]
}
");
    (* examples/reserved-words/.butane/migrations/20250503_065948927_init/pg_down.sql *)
    ("20250503_065948927_init", "pg_down.sql", "DROP TABLE ""User"";
");
    (* examples/reserved-words/.butane/migrations/20250503_065948927_init/pg_up.sql *)
    ("20250503_065948927_init", "pg_up.sql", "CREATE TABLE ""User"" (
""id"" TEXT NOT NULL PRIMARY KEY,
""name"" TEXT NOT NULL,
email TEXT NOT NULL
);
CREATE TABLE IF NOT EXISTS butane_migrations (
""name"" TEXT NOT NULL PRIMARY KEY
);
");
    (* examples/reserved-words/.butane/migrations/20250503_065948927_init/sqlite_down.sql *)
    ("20250503_065948927_init", "sqlite_down.sql", "DROP TABLE ""User"";
");
    (* examples/reserved-words/.butane/migrations/20250503_065948927_init/sqlite_up.sql *)
    ("20250503_065948927_init", "sqlite_up.sql", "CREATE TABLE ""User"" (
""id"" TEXT NOT NULL PRIMARY KEY,
""name"" TEXT NOT NULL,
email TEXT NOT NULL
) STRICT;
CREATE TABLE IF NOT EXISTS butane_migrations (
""name"" TEXT NOT NULL PRIMARY KEY
) STRICT;
");
    (* examples/reserved-words/.butane/migrations/20250503_065948927_init/turso_down.sql *)
    ("20250503_065948927_init", "turso_down.sql", "DROP TABLE ""User"";
");
    (* examples/reserved-words/.butane/migrations/20250503_065948927_init/turso_up.sql *)
    ("20250503_065948927_init", "turso_up.sql", "CREATE TABLE ""User"" (""id"" TEXT NOT NULL PRIMARY KEY, ""name"" TEXT NOT NULL, email TEXT NOT NULL);
CREATE TABLE IF NOT EXISTS butane_migrations (""name"" TEXT NOT NULL PRIMARY KEY);
");
    (* examples/reserved-words/.butane/migrations/20250504_001654915_add-fkey/Post.table *)
    ("20250504_001654915_add-fkey", "Post.table", "{
  ""name"": ""Post"",
  ""columns"": [
    {
      ""name"": ""id"",
      ""sqltype"": {
        ""KnownId"": {
          ""Ty"": ""Int""
        }
      },
      ""nullable"": false,
      ""pk"": true,
      ""auto"": true,
      ""unique"": false,
      ""default"": null
    },
    {
      ""name"": ""title"",
      ""sqltype"": {
        ""KnownId"": {
          ""Ty"": ""Text""
        }
      },
      ""nullable"": false,
      ""pk"": false,
      ""auto"": false,
      ""unique"": false,
      ""default"": null
    },
    {
      ""name"": ""body"",
      ""sqltype"": {
        ""KnownId"": {
          ""Ty"": ""Text""
        }
      },
      ""nullable"": false,
      ""pk"": false,
      ""auto"": false,
      ""unique"": false,
      ""default"": null
    },
    {
      ""name"": ""published"",
      ""sqltype"": {
        ""KnownId"": {
          ""Ty"": ""Bool""
        }
      },
      ""nullable"": false,
      ""pk"": false,
      ""auto"": false,
      ""unique"": false,
      ""default"": null
    },
    {
      ""name"": ""byline"",
      ""sqltype"": {
        ""KnownId"": {
          ""Ty"": ""Text""
        }
      },
      ""nullable"": true,
      ""pk"": false,
      ""auto"": false,
      ""unique"": false,
      ""default"": null,
      ""reference"": {
        ""Literal"": {
          ""table_name"": ""User"",
          ""column_name"": ""id""
        }
      }
    }
  ]
}
");
    (* examples/reserved-words/.butane/migrations/20250504_001654915_add-fkey/info.json *)
    ("20250504_001654915_add-fkey", "info.json", "{
  ""from_name"": ""20250503_065948927_init"",
  ""table_bases"": {
    ""User"": ""20250503_065948927_init""
  },
  ""backends"": [
    ""sqlite"",
    ""pg"",
    ""turso""
  ]
}
");
    (* examples/reserved-words/.butane/migrations/20250504_001654915_add-fkey/pg_down.sql *)
    ("20250504_001654915_add-fkey", "pg_down.sql", "ALTER TABLE Post DROP CONSTRAINT Post_byline_fkey;
DROP TABLE Post;
");
    (* examples/reserved-words/.butane/migrations/20250504_001654915_add-fkey/pg_up.sql *)
    ("20250504_001654915_add-fkey", "pg_up.sql", "CREATE TABLE Post (
""id"" SERIAL NOT NULL PRIMARY KEY,
title TEXT NOT NULL,
body TEXT NOT NULL,
published BOOLEAN NOT NULL,
byline TEXT
);
ALTER TABLE Post ADD FOREIGN KEY (byline) REFERENCES ""User""(""id"");
");
    (* examples/reserved-words/.butane/migrations/20250504_001654915_add-fkey/sqlite_down.sql *)
    ("20250504_001654915_add-fkey", "sqlite_down.sql", "DROP TABLE Post;
");
    (* examples/reserved-words/.butane/migrations/20250504_001654915_add-fkey/sqlite_up.sql *)
    ("20250504_001654915_add-fkey", "sqlite_up.sql", "CREATE TABLE Post (
""id"" INTEGER NOT NULL PRIMARY KEY,
title TEXT NOT NULL,
body TEXT NOT NULL,
published INTEGER NOT NULL,
byline TEXT,
FOREIGN KEY (byline) REFERENCES ""User""(""id"")
) STRICT;
");
    (* examples/reserved-words/.butane/migrations/20250504_001654915_add-fkey/turso_down.sql *)
    ("20250504_001654915_add-fkey", "turso_down.sql", "DROP TABLE Post;
");
    (* examples/reserved-words/.butane/migrations/20250504_001654915_add-fkey/turso_up.sql *)
    ("20250504_001654915_add-fkey", "turso_up.sql", "CREATE TABLE Post (
    ""id"" INTEGER NOT NULL PRIMARY KEY,
    title TEXT NOT NULL,
    body TEXT NOT NULL,
    published INTEGER NOT NULL,
    byline TEXT,
    FOREIGN KEY (byline) REFERENCES ""User""(""id"")
);
");
    (* examples/reserved-words/.butane/migrations/20250504_002109086_add-many/Post_likes_Many.table *)
    ("20250504_002109086_add-many", "Post_likes_Many.table", "{
  ""name"": ""Post_likes_Many"",
  ""columns"": [
    {
      ""name"": ""owner"",
      ""sqltype"": {
        ""KnownId"": {
          ""Ty"": ""Int""
        }
      },
      ""nullable"": false,
      ""pk"": false,
      ""auto"": false,
      ""unique"": false,
      ""default"": null,
      ""reference"": {
        ""Literal"": {
          ""table_name"": ""Post"",
          ""column_name"": ""id""
        }
      }
    },
    {
      ""name"": ""has"",
      ""sqltype"": {
        ""KnownId"": {
          ""Ty"": ""Text""
        }
      },
      ""nullable"": false,
      ""pk"": false,
      ""auto"": false,
      ""unique"": false,
      ""default"": null,
      ""reference"": {
        ""Literal"": {
          ""table_name"": ""User"",
          ""column_name"": ""id""
        }
      }
    }
  ]
}
");
    (* examples/reserved-words/.butane/migrations/20250504_002109086_add-many/info.json *)
    ("20250504_002109086_add-many", "info.json", "{
  ""from_name"": ""20250504_001654915_add-fkey"",
  ""table_bases"": {
    ""Post"": ""20250504_001654915_add-fkey"",
    ""User"": ""20250503_065948927_init""
  },
  ""backends"": [
    ""sqlite"",
    ""pg"",
    ""turso""
  ]
}
");
    (* examples/reserved-words/.butane/migrations/20250504_002109086_add-many/pg_down.sql *)
    ("20250504_002109086_add-many", "pg_down.sql", "ALTER TABLE Post_likes_Many DROP CONSTRAINT Post_likes_Many_owner_fkey;
ALTER TABLE Post_likes_Many DROP CONSTRAINT Post_likes_Many_has_fkey;
DROP TABLE Post_likes_Many;
");
    (* examples/reserved-words/.butane/migrations/20250504_002109086_add-many/pg_up.sql *)
    ("20250504_002109086_add-many", "pg_up.sql", "CREATE TABLE Post_likes_Many (
""owner"" INTEGER NOT NULL,
has TEXT NOT NULL
);
ALTER TABLE Post_likes_Many ADD FOREIGN KEY (""owner"") REFERENCES Post(""id"");
ALTER TABLE Post_likes_Many ADD FOREIGN KEY (has) REFERENCES ""User""(""id"");
");
    (* examples/reserved-words/.butane/migrations/20250504_002109086_add-many/sqlite_down.sql *)
    ("20250504_002109086_add-many", "sqlite_down.sql", "DROP TABLE Post_likes_Many;
");
    (* examples/reserved-words/.butane/migrations/20250504_002109086_add-many/sqlite_up.sql *)
    ("20250504_002109086_add-many", "sqlite_up.sql", "CREATE TABLE Post_likes_Many (
""owner"" INTEGER NOT NULL,
has TEXT NOT NULL,
FOREIGN KEY (""owner"") REFERENCES Post(""id"")
FOREIGN KEY (has) REFERENCES ""User""(""id"")
) STRICT;
");
    (* examples/reserved-words/.butane/migrations/20250504_002109086_add-many/turso_down.sql *)
    ("20250504_002109086_add-many", "turso_down.sql", "DROP TABLE Post_likes_Many;
");
    (* examples/reserved-words/.butane/migrations/20250504_002109086_add-many/turso_up.sql *)
    ("20250504_002109086_add-many", "turso_up.sql", "CREATE TABLE Post_likes_Many (
    ""owner"" INTEGER NOT NULL,
    has TEXT NOT NULL,
    FOREIGN KEY (""owner"") REFERENCES Post(""id""),
    FOREIGN KEY (has) REFERENCES ""User""(""id"")
);
");
    (* examples/reserved-words/.butane/migrations/20250504_025454048_rowid/RowidTest.table *)
    ("20250504_025454048_rowid", "RowidTest.table", "{
  ""name"": ""RowidTest"",
  ""columns"": [
    {
      ""name"": ""rowid"",
      ""sqltype"": {
        ""KnownId"": {
          ""Ty"": ""Int""
        }
      },
      ""nullable"": false,
      ""pk"": true,
      ""auto"": false,
      ""unique"": false,
      ""default"": null
    }
  ]
}
");
    (* examples/reserved-words/.butane/migrations/20250504_025454048_rowid/info.json *)
    ("20250504_025454048_rowid", "info.json", "{
  ""from_name"": ""20250504_002109086_add-many"",
  ""table_bases"": {
    ""Post"": ""20250504_001654915_add-fkey"",
    ""Post_likes_Many"": ""20250504_002109086_add-many"",
    ""User"": ""20250503_065948927_init""
  },
  ""backends"": [
    ""sqlite"",
    ""pg"",
    ""turso""
  ]
}
");
    (* examples/reserved-words/.butane/migrations/20250504_025454048_rowid/pg_down.sql *)
    ("20250504_025454048_rowid", "pg_down.sql", "DROP TABLE RowidTest;
");
    (* examples/reserved-words/.butane/migrations/20250504_025454048_rowid/pg_up.sql *)
    ("20250504_025454048_rowid", "pg_up.sql", "CREATE TABLE RowidTest (
""rowid"" INTEGER NOT NULL PRIMARY KEY
);
");
    (* examples/reserved-words/.butane/migrations/20250504_025454048_rowid/sqlite_down.sql *)
    ("20250504_025454048_rowid", "sqlite_down.sql", "DROP TABLE RowidTest;
");
    (* examples/reserved-words/.butane/migrations/20250504_025454048_rowid/sqlite_up.sql *)
    ("20250504_025454048_rowid", "sqlite_up.sql", "CREATE TABLE RowidTest (
""rowid"" INTEGER NOT NULL PRIMARY KEY
) STRICT;
");
    (* examples/reserved-words/.butane/migrations/20250504_025454048_rowid/turso_down.sql *)
    ("20250504_025454048_rowid", "turso_down.sql", "DROP TABLE RowidTest;
");
    (* examples/reserved-words/.butane/migrations/20250504_025454048_rowid/turso_up.sql *)
    ("20250504_025454048_rowid", "turso_up.sql", "CREATE TABLE RowidTest (""rowid"" INTEGER NOT NULL PRIMARY KEY);
");
    (* examples/reserved-words/.butane/migrations/current/Post.table *)
    ("current", "Post.table", "{
  ""name"": ""Post"",
  ""columns"": [
    {
      ""name"": ""id"",
      ""sqltype"": {
        ""KnownId"": {
          ""Ty"": ""Int""
        }
      },
      ""nullable"": false,
      ""pk"": true,
      ""auto"": true,
      ""unique"": false,
      ""default"": null
    },
    {
      ""name"": ""title"",
      ""sqltype"": {
        ""KnownId"": {
          ""Ty"": ""Text""
        }
      },
      ""nullable"": false,
      ""pk"": false,
      ""auto"": false,
      ""unique"": false,
      ""default"": null
    },
    {
      ""name"": ""body"",
      ""sqltype"": {
        ""KnownId"": {
          ""Ty"": ""Text""
        }
      },
      ""nullable"": false,
      ""pk"": false,
      ""auto"": false,
      ""unique"": false,
      ""default"": null
    },
    {
      ""name"": ""published"",
      ""sqltype"": {
        ""KnownId"": {
          ""Ty"": ""Bool""
        }
      },
      ""nullable"": false,
      ""pk"": false,
      ""auto"": false,
      ""unique"": false,
      ""default"": null
    },
    {
      ""name"": ""byline"",
      ""sqltype"": {
        ""Deferred"": ""PK:User""
      },
      ""nullable"": true,
      ""pk"": false,
      ""auto"": false,
      ""unique"": false,
      ""default"": null,
      ""reference"": {
        ""Deferred"": {
          ""Deferred"": ""PK:User""
        }
      }
    }
  ]
}
");
    (* examples/reserved-words/.butane/migrations/current/Post_likes_Many.table *)
    ("current", "Post_likes_Many.table", "{
  ""name"": ""Post_likes_Many"",
  ""columns"": [
    {
      ""name"": ""owner"",
      ""sqltype"": {
        ""KnownId"": {
          ""Ty"": ""Int""
        }
      },
      ""nullable"": false,
      ""pk"": false,
      ""auto"": false,
      ""unique"": false,
      ""default"": null,
      ""reference"": {
        ""Literal"": {
          ""table_name"": ""Post"",
          ""column_name"": ""id""
        }
      }
    },
    {
      ""name"": ""has"",
      ""sqltype"": {
        ""Deferred"": ""PK:User""
      },
      ""nullable"": false,
      ""pk"": false,
      ""auto"": false,
      ""unique"": false,
      ""default"": null,
      ""reference"": {
        ""Deferred"": {
          ""Deferred"": ""PK:User""
        }
      }
    }
  ]
}
");
    (* examples/reserved-words/.butane/migrations/current/RowidTest.table *)
    ("current", "RowidTest.table", "{
  ""name"": ""RowidTest"",
  ""columns"": [
    {
      ""name"": ""rowid"",
      ""sqltype"": {
        ""KnownId"": {
          ""Ty"": ""Int""
        }
      },
      ""nullable"": false,
      ""pk"": true,
      ""auto"": false,
      ""unique"": false,
      ""default"": null
    }
  ]
}
");
    (* examples/reserved-words/.butane/migrations/current/User.table *)
    ("current", "User.table", "{
  ""name"": ""User"",
  ""columns"": [
    {
      ""name"": ""id"",
      ""sqltype"": {
        ""KnownId"": {
          ""Ty"": ""Text""
        }
      },
      ""nullable"": false,
      ""pk"": true,
      ""auto"": false,
      ""unique"": false,
      ""default"": null
    },
    {
      ""name"": ""name"",
      ""sqltype"": {
        ""KnownId"": {
          ""Ty"": ""Text""
        }
      },
      ""nullable"": false,
      ""pk"": false,
      ""auto"": false,
      ""unique"": false,
      ""default"": null
    },
    {
      ""name"": ""email"",
      ""sqltype"": {
        ""KnownId"": {
          ""Ty"": ""Text""
        }
      },
      ""nullable"": false,
      ""pk"": false,
      ""auto"": false,
      ""unique"": false,
      ""default"": null
    }
  ]
}
")];
  (* examples/reserved-words/.butane/migrations/state.json *)
  rp_state := Some "{
  ""latest"": ""20250504_025454048_rowid""
}
";
  (* examples/reserved-words/.butane/clistate.json *)
  rp_cli := "{
  ""embedded"": true
}
";
  (* examples/reserved-words/src/butane_migrations.rs *)
  rp_source := "//! Butane migrations embedded in Rust.

use butane::migrations::MemMigrations;

/// Load the butane migrations embedded in Rust.
pub fn get_migrations() -> Result<MemMigrations, butane::Error> {
    let json = r#""{
  ""migrations"": {
    ""20250503_065948927_init"": {
      ""name"": ""20250503_065948927_init"",
      ""db"": {
        ""tables"": {
          ""User"": {
            ""name"": ""User"",
            ""columns"": [
              {
                ""name"": ""id"",
                ""sqltype"": {
                  ""KnownId"": {
                    ""Ty"": ""Text""
                  }
                },
                ""nullable"": false,
                ""pk"": true,
                ""auto"": false,
                ""unique"": false,
                ""default"": null
              },
              {
                ""name"": ""name"",
                ""sqltype"": {
                  ""KnownId"": {
                    ""Ty"": ""Text""
                  }
                },
                ""nullable"": false,
                ""pk"": false,
                ""auto"": false,
                ""unique"": false,
                ""default"": null
              },
              {
                ""name"": ""email"",
                ""sqltype"": {
                  ""KnownId"": {
                    ""Ty"": ""Text""
                  }
                },
                ""nullable"": false,
                ""pk"": false,
                ""auto"": false,
                ""unique"": false,
                ""default"": null
              }
            ]
          }
        },
        ""extra_types"": {}
      },
      ""from"": null,
      ""up"": {
        ""pg"": ""CREATE TABLE \""User\"" (\n\""id\"" TEXT NOT NULL PRIMARY KEY,\n\""name\"" TEXT NOT NULL,\nemail TEXT NOT NULL\n);\nCREATE TABLE IF NOT EXISTS butane_migrations (\n\""name\"" TEXT NOT NULL PRIMARY KEY\n);\n"",
        ""sqlite"": ""CREATE TABLE \""User\"" (\n\""id\"" TEXT NOT NULL PRIMARY KEY,\n\""name\"" TEXT NOT NULL,\nemail TEXT NOT NULL\n) STRICT;\nCREATE TABLE IF NOT EXISTS butane_migrations (\n\""name\"" TEXT NOT NULL PRIMARY KEY\n) STRICT;\n"",
        ""turso"": ""CREATE TABLE \""User\"" (\""id\"" TEXT NOT NULL PRIMARY KEY, \""name\"" TEXT NOT NULL, email TEXT NOT NULL);\nCREATE TABLE IF NOT EXISTS butane_migrations (\""name\"" TEXT NOT NULL PRIMARY KEY);\n""
      },
      ""down"": {
        ""pg"": ""DROP TABLE \""User\"";\n"",
        ""sqlite"": ""DROP TABLE \""User\"";\n"",
        ""turso"": ""DROP TABLE \""User\"";\n""
      }
    },
    ""20250504_001654915_add-fkey"": {
      ""name"": ""20250504_001654915_add-fkey"",
      ""db"": {
        ""tables"": {
          ""Post"": {
            ""name"": ""Post"",
            ""columns"": [
              {
                ""name"": ""id"",
                ""sqltype"": {
                  ""KnownId"": {
                    ""Ty"": ""Int""
                  }
                },
                ""nullable"": false,
                ""pk"": true,
                ""auto"": true,
                ""unique"": false,
                ""default"": null
              },
              {
                ""name"": ""title"",
                ""sqltype"": {
                  ""KnownId"": {
                    ""Ty"": ""Text""
                  }
                },
                ""nullable"": false,
                ""pk"": false,
                ""auto"": false,
                ""unique"": false,
                ""default"": null
              },
              {
                ""name"": ""body"",
                ""sqltype"": {
                  ""KnownId"": {
                    ""Ty"": ""Text""
                  }
                },
                ""nullable"": false,
                ""pk"": false,
                ""auto"": false,
                ""unique"": false,
                ""default"": null
              },
              {
                ""name"": ""published"",
                ""sqltype"": {
                  ""KnownId"": {
                    ""Ty"": ""Bool""
                  }
                },
                ""nullable"": false,
                ""pk"": false,
                ""auto"": false,
                ""unique"": false,
                ""default"": null
              },
              {
                ""name"": ""byline"",
                ""sqltype"": {
                  ""KnownId"": {
                    ""Ty"": ""Text""
                  }
                },
                ""nullable"": true,
                ""pk"": false,
                ""auto"": false,
                ""unique"": false,
                ""default"": null,
                ""reference"": {
                  ""Literal"": {
                    ""table_name"": ""User"",
                    ""column_name"": ""id""
                  }
                }
              }
            ]
          },
          ""User"": {
            ""name"": ""User"",
            ""columns"": [
              {
                ""name"": ""id"",
                ""sqltype"": {
                  ""KnownId"": {
                    ""Ty"": ""Text""
                  }
                },
                ""nullable"": false,
                ""pk"": true,
                ""auto"": false,
                ""unique"": false,
                ""default"": null
              },
              {
                ""name"": ""name"",
                ""sqltype"": {
                  ""KnownId"": {
                    ""Ty"": ""Text""
                  }
                },
                ""nullable"": false,
                ""pk"": false,
                ""auto"": false,
                ""unique"": false,
                ""default"": null
              },
              {
                ""name"": ""email"",
                ""sqltype"": {
                  ""KnownId"": {
                    ""Ty"": ""Text""
                  }
                },
                ""nullable"": false,
                ""pk"": false,
                ""auto"": false,
                ""unique"": false,
                ""default"": null
              }
            ]
          }
        },
        ""extra_types"": {}
      },
      ""from"": ""20250503_065948927_init"",
      ""up"": {
        ""pg"": ""CREATE TABLE Post (\n\""id\"" SERIAL NOT NULL PRIMARY KEY,\ntitle TEXT NOT NULL,\nbody TEXT NOT NULL,\npublished BOOLEAN NOT NULL,\nbyline TEXT\n);\nALTER TABLE Post ADD FOREIGN KEY (byline) REFERENCES \""User\""(\""id\"");\n"",
        ""sqlite"": ""CREATE TABLE Post (\n\""id\"" INTEGER NOT NULL PRIMARY KEY,\ntitle TEXT NOT NULL,\nbody TEXT NOT NULL,\npublished INTEGER NOT NULL,\nbyline TEXT,\nFOREIGN KEY (byline) REFERENCES \""User\""(\""id\"")\n) STRICT;\n"",
        ""turso"": ""CREATE TABLE Post (\n    \""id\"" INTEGER NOT NULL PRIMARY KEY,\n    title TEXT NOT NULL,\n    body TEXT NOT NULL,\n    published INTEGER NOT NULL,\n    byline TEXT,\n    FOREIGN KEY (byline) REFERENCES \""User\""(\""id\"")\n);\n""
      },
      ""down"": {
        ""pg"": ""ALTER TABLE Post DROP CONSTRAINT Post_byline_fkey;\nDROP TABLE Post;\n"",
        ""sqlite"": ""DROP TABLE Post;\n"",
        ""turso"": ""DROP TABLE Post;\n""
      }
    },
    ""20250504_002109086_add-many"": {
      ""name"": ""20250504_002109086_add-many"",
      ""db"": {
        ""tables"": {
          ""Post"": {
            ""name"": ""Post"",
            ""columns"": [
              {
                ""name"": ""id"",
                ""sqltype"": {
                  ""KnownId"": {
                    ""Ty"": ""Int""
                  }
                },
                ""nullable"": false,
                ""pk"": true,
                ""auto"": true,
                ""unique"": false,
                ""default"": null
              },
              {
                ""name"": ""title"",
                ""sqltype"": {
                  ""KnownId"": {
                    ""Ty"": ""Text""
                  }
                },
                ""nullable"": false,
                ""pk"": false,
                ""auto"": false,
                ""unique"": false,
                ""default"": null
              },
              {
                ""name"": ""body"",
                ""sqltype"": {
                  ""KnownId"": {
                    ""Ty"": ""Text""
                  }
                },
                ""nullable"": false,
                ""pk"": false,
                ""auto"": false,
                ""unique"": false,
                ""default"": null
              },
              {
                ""name"": ""published"",
                ""sqltype"": {
                  ""KnownId"": {
                    ""Ty"": ""Bool""
                  }
                },
                ""nullable"": false,
                ""pk"": false,
                ""auto"": false,
                ""unique"": false,
                ""default"": null
              },
              {
                ""name"": ""byline"",
                ""sqltype"": {
                  ""KnownId"": {
                    ""Ty"": ""Text""
                  }
                },
                ""nullable"": true,
                ""pk"": false,
                ""auto"": false,
                ""unique"": false,
                ""default"": null,
                ""reference"": {
                  ""Literal"": {
                    ""table_name"": ""User"",
                    ""column_name"": ""id""
                  }
                }
              }
            ]
          },
          ""Post_likes_Many"": {
            ""name"": ""Post_likes_Many"",
            ""columns"": [
              {
                ""name"": ""owner"",
                ""sqltype"": {
                  ""KnownId"": {
                    ""Ty"": ""Int""
                  }
                },
                ""nullable"": false,
                ""pk"": false,
                ""auto"": false,
                ""unique"": false,
                ""default"": null,
                ""reference"": {
                  ""Literal"": {
                    ""table_name"": ""Post"",
                    ""column_name"": ""id""
                  }
                }
              },
              {
                ""name"": ""has"",
                ""sqltype"": {
                  ""KnownId"": {
                    ""Ty"": ""Text""
                  }
                },
                ""nullable"": false,
                ""pk"": false,
                ""auto"": false,
                ""unique"": false,
                ""default"": null,
                ""reference"": {
                  ""Literal"": {
                    ""table_name"": ""User"",
                    ""column_name"": ""id""
                  }
                }
              }
            ]
          },
          ""User"": {
            ""name"": ""User"",
            ""columns"": [
              {
                ""name"": ""id"",
                ""sqltype"": {
                  ""KnownId"": {
                    ""Ty"": ""Text""
                  }
                },
                ""nullable"": false,
                ""pk"": true,
                ""auto"": false,
                ""unique"": false,
                ""default"": null
              },
              {
                ""name"": ""name"",
                ""sqltype"": {
                  ""KnownId"": {
                    ""Ty"": ""Text""
                  }
                },
                ""nullable"": false,
                ""pk"": false,
                ""auto"": false,
                ""unique"": false,
                ""default"": null
              },
              {
                ""name"": ""email"",
                ""sqltype"": {
                  ""KnownId"": {
                    ""Ty"": ""Text""
                  }
                },
                ""nullable"": false,
                ""pk"": false,
                ""auto"": false,
                ""unique"": false,
                ""default"": null
              }
            ]
          }
        },
        ""extra_types"": {}
      },
      ""from"": ""20250504_001654915_add-fkey"",
      ""up"": {
        ""pg"": ""CREATE TABLE Post_likes_Many (\n\""owner\"" INTEGER NOT NULL,\nhas TEXT NOT NULL\n);\nALTER TABLE Post_likes_Many ADD FOREIGN KEY (\""owner\"") REFERENCES Post(\""id\"");\nALTER TABLE Post_likes_Many ADD FOREIGN KEY (has) REFERENCES \""User\""(\""id\"");\n"",
        ""sqlite"": ""CREATE TABLE Post_likes_Many (\n\""owner\"" INTEGER NOT NULL,\nhas TEXT NOT NULL,\nFOREIGN KEY (\""owner\"") REFERENCES Post(\""id\"")\nFOREIGN KEY (has) REFERENCES \""User\""(\""id\"")\n) STRICT;\n"",
        ""turso"": ""CREATE TABLE Post_likes_Many (\n    \""owner\"" INTEGER NOT NULL,\n    has TEXT NOT NULL,\n    FOREIGN KEY (\""owner\"") REFERENCES Post(\""id\""),\n    FOREIGN KEY (has) REFERENCES \""User\""(\""id\"")\n);\n""
      },
      ""down"": {
        ""pg"": ""ALTER TABLE Post_likes_Many DROP CONSTRAINT Post_likes_Many_owner_fkey;\nALTER TABLE Post_likes_Many DROP CONSTRAINT Post_likes_Many_has_fkey;\nDROP TABLE Post_likes_Many;\n"",
        ""sqlite"": ""DROP TABLE Post_likes_Many;\n"",
        ""turso"": ""DROP TABLE Post_likes_Many;\n""
      }
    },
    ""20250504_025454048_rowid"": {
      ""name"": ""20250504_025454048_rowid"",
      ""db"": {
        ""tables"": {
          ""Post"": {
            ""name"": ""Post"",
            ""columns"": [
              {
                ""name"": ""id"",
                ""sqltype"": {
                  ""KnownId"": {
                    ""Ty"": ""Int""
                  }
                },
                ""nullable"": false,
                ""pk"": true,
                ""auto"": true,
                ""unique"": false,
                ""default"": null
              },
              {
                ""name"": ""title"",
                ""sqltype"": {
                  ""KnownId"": {
                    ""Ty"": ""Text""
                  }
                },
                ""nullable"": false,
                ""pk"": false,
                ""auto"": false,
                ""unique"": false,
                ""default"": null
              },
              {
                ""name"": ""body"",
                ""sqltype"": {
                  ""KnownId"": {
                    ""Ty"": ""Text""
                  }
                },
                ""nullable"": false,
                ""pk"": false,
                ""auto"": false,
                ""unique"": false,
                ""default"": null
              },
              {
                ""name"": ""published"",
                ""sqltype"": {
                  ""KnownId"": {
                    ""Ty"": ""Bool""
                  }
                },
                ""nullable"": false,
                ""pk"": false,
                ""auto"": false,
                ""unique"": false,
                ""default"": null
              },
              {
                ""name"": ""byline"",
                ""sqltype"": {
                  ""KnownId"": {
                    ""Ty"": ""Text""
                  }
                },
                ""nullable"": true,
                ""pk"": false,
                ""auto"": false,
                ""unique"": false,
                ""default"": null,
                ""reference"": {
                  ""Literal"": {
                    ""table_name"": ""User"",
                    ""column_name"": ""id""
                  }
                }
              }
            ]
          },
          ""Post_likes_Many"": {
            ""name"": ""Post_likes_Many"",
            ""columns"": [
              {
                ""name"": ""owner"",
                ""sqltype"": {
                  ""KnownId"": {
                    ""Ty"": ""Int""
                  }
                },
                ""nullable"": false,
                ""pk"": false,
                ""auto"": false,
                ""unique"": false,
                ""default"": null,
                ""reference"": {
                  ""Literal"": {
                    ""table_name"": ""Post"",
                    ""column_name"": ""id""
                  }
                }
              },
              {
                ""name"": ""has"",
                ""sqltype"": {
                  ""KnownId"": {
                    ""Ty"": ""Text""
                  }
                },
                ""nullable"": false,
                ""pk"": false,
                ""auto"": false,
                ""unique"": false,
                ""default"": null,
                ""reference"": {
                  ""Literal"": {
                    ""table_name"": ""User"",
                    ""column_name"": ""id""
                  }
                }
              }
            ]
          },
          ""RowidTest"": {
            ""name"": ""RowidTest"",
            ""columns"": [
              {
                ""name"": ""rowid"",
                ""sqltype"": {
                  ""KnownId"": {
                    ""Ty"": ""Int""
                  }
                },
                ""nullable"": false,
                ""pk"": true,
                ""auto"": false,
                ""unique"": false,
                ""default"": null
              }
            ]
          },
          ""User"": {
            ""name"": ""User"",
            ""columns"": [
              {
                ""name"": ""id"",
                ""sqltype"": {
                  ""KnownId"": {
                    ""Ty"": ""Text""
                  }
                },
                ""nullable"": false,
                ""pk"": true,
                ""auto"": false,
                ""unique"": false,
                ""default"": null
              },
              {
                ""name"": ""name"",
                ""sqltype"": {
                  ""KnownId"": {
                    ""Ty"": ""Text""
                  }
                },
                ""nullable"": false,
                ""pk"": false,
                ""auto"": false,
                ""unique"": false,
                ""default"": null
              },
              {
                ""name"": ""email"",
                ""sqltype"": {
                  ""KnownId"": {
                    ""Ty"": ""Text""
                  }
                },
                ""nullable"": false,
                ""pk"": false,
                ""auto"": false,
                ""unique"": false,
                ""default"": null
              }
            ]
          }
        },
        ""extra_types"": {}
      },
      ""from"": ""20250504_002109086_add-many"",
      ""up"": {
        ""pg"": ""CREATE TABLE RowidTest (\n\""rowid\"" INTEGER NOT NULL PRIMARY KEY\n);\n"",
        ""sqlite"": ""CREATE TABLE RowidTest (\n\""rowid\"" INTEGER NOT NULL PRIMARY KEY\n) STRICT;\n"",
        ""turso"": ""CREATE TABLE RowidTest (\""rowid\"" INTEGER NOT NULL PRIMARY KEY);\n""
      },
      ""down"": {
        ""pg"": ""DROP TABLE RowidTest;\n"",
        ""sqlite"": ""DROP TABLE RowidTest;\n"",
        ""turso"": ""DROP TABLE RowidTest;\n""
      }
    }
  },
  ""current"": {
    ""name"": ""current"",
    ""db"": {
      ""tables"": {},
      ""extra_types"": {}
    },
    ""from"": null,
    ""up"": {},
    ""down"": {}
  },
  ""latest"": ""20250504_025454048_rowid""
}""#;
    MemMigrations::from_json(json)
}
" |}.

(** examples/custom_pg *)
Definition repo_custom_pg : repo_project := {|
  rp_files := [
    (* examples/custom_pg/.butane/migrations/current/Trip.table *)
    ("current", "Trip.table", "{
  ""name"": ""Trip"",
  ""columns"": [
    {
      ""name"": ""id"",
      ""sqltype"": {
        ""KnownId"": {
          ""Ty"": ""BigInt""
        }
      },
      ""nullable"": false,
      ""pk"": true,
      ""auto"": true,
      ""unique"": false,
      ""default"": null
    },
    {
      ""name"": ""pt_from"",
      ""sqltype"": {
        ""Deferred"": ""CT:Point""
      },
      ""nullable"": false,
      ""pk"": false,
      ""auto"": false,
      ""unique"": false,
      ""default"": null
    },
    {
      ""name"": ""pt_to"",
      ""sqltype"": {
        ""Deferred"": ""CT:Point""
      },
      ""nullable"": false,
      ""pk"": false,
      ""auto"": false,
      ""unique"": false,
      ""default"": null
    }
  ]
}
");
    (* examples/custom_pg/.butane/migrations/current/types.json *)
    ("current", "types.json", "{""CT:Point"":{""KnownId"":{""Name"":""POINT""}}}
")];
  (* examples/custom_pg/.butane/migrations/state.json *)
  rp_state := None;
  (* examples/custom_pg/.butane/clistate.json *)
  rp_cli := "{
  ""embedded"": true
}
";
  (* examples/custom_pg/src/butane_migrations.rs *)
  rp_source := "//! Butane migrations embedded in Rust.

use butane::migrations::MemMigrations;

/// Load the butane migrations embedded in Rust.
pub fn get_migrations() -> Result<MemMigrations, butane::Error> {
    let json = r#""{
  ""migrations"": {},
  ""current"": {
    ""name"": ""current"",
    ""db"": {
      ""tables"": {},
      ""extra_types"": {}
    },
    ""from"": null,
    ""up"": {},
    ""down"": {}
  },
  ""latest"": null
}""#;
    MemMigrations::from_json(json)
}
" |}.
